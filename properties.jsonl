{"id": "C01", "title": "add is addition modulo 2^w", "statement": "For two bit-vectors of equal width w > 0, a.add(&b) (also &a + &b) returns a w-bit value whose unsigned value is (a + b) mod 2^w; it never panics.", "quantifier": "every width 1..2^32-1 and every pair of values of that width, in debug and in release builds", "why_tests_cant": "Carries, word boundaries and unused top bits interact differently at every width and value; random tests sample widths of a few hundred bits and essentially never hit the boundary patterns (shift by a multiple of 64, width = 1 mod 64, minimum value).", "anchors": ["src/bv/arithmetic.rs:adc,add", "src/bv/ops.rs:declare_arith_bin_fn!(add)", "src/bv/owned.rs:impl Add"]}
{"id": "C02", "title": "sub is subtraction modulo 2^w", "statement": "For two bit-vectors of equal width w > 0, a.sub(&b) (also &a - &b) returns the w-bit value (a - b) mod 2^w; subtracting what was added gives back the original value.", "quantifier": "every width 1..2^32-1 and every pair of values of that width, in debug and in release builds", "why_tests_cant": "Carries, word boundaries and unused top bits interact differently at every width and value; random tests sample widths of a few hundred bits and essentially never hit the boundary patterns (shift by a multiple of 64, width = 1 mod 64, minimum value).", "anchors": ["src/bv/arithmetic.rs:sub", "src/bv/ops.rs:declare_arith_bin_fn!(sub)", "src/bv/owned.rs:impl Sub"]}
{"id": "C03", "title": "mul is multiplication modulo 2^w", "statement": "For two bit-vectors of equal width w > 0, a.mul(&b) returns the w-bit value (a * b) mod 2^w.", "quantifier": "every width 1..2^32-1 and every pair of values of that width, in debug and in release builds", "why_tests_cant": "Carries, word boundaries and unused top bits interact differently at every width and value; random tests sample widths of a few hundred bits and essentially never hit the boundary patterns (shift by a multiple of 64, width = 1 mod 64, minimum value).", "anchors": ["src/bv/arithmetic.rs:mul", "src/bv/ops.rs:declare_arith_bin_fn!(mul)"]}
{"id": "C04", "title": "negate is two's complement negation", "statement": "For every w-bit value (w > 0) a.negate() is the w-bit value (-a) mod 2^w; negating twice returns the original and a + (-a) = 0.", "quantifier": "every width 1..2^32-1 and every value", "why_tests_cant": "Carries, word boundaries and unused top bits interact differently at every width and value; random tests sample widths of a few hundred bits and essentially never hit the boundary patterns (shift by a multiple of 64, width = 1 mod 64, minimum value).", "anchors": ["src/bv/arithmetic.rs:negate,negate_in_place", "src/bv/ops.rs:BitVecOps::negate"]}
{"id": "C05", "title": "not/and/or/xor act bit by bit", "statement": "For equal width w > 0, bit i of a.and(&b), a.or(&b), a.xor(&b), a.not() is the Boolean operation applied to bit i of the operands for every i < w, and no bit at or above w is ever set.", "quantifier": "every width 1..2^32-1 and every pair of values of that width, in debug and in release builds", "why_tests_cant": "Carries, word boundaries and unused top bits interact differently at every width and value; random tests sample widths of a few hundred bits and essentially never hit the boundary patterns (shift by a multiple of 64, width = 1 mod 64, minimum value).", "anchors": ["src/bv/arithmetic.rs:not,and,or,xor,bitwise_bin_op", "src/bv/ops.rs:declare_bit_arith_bin_fn!,BitVecOps::not"]}
{"id": "C06", "title": "shift_left is multiplication by 2^b modulo 2^w", "statement": "For equal width w > 0, a.shift_left(&b) is a well-formed w-bit value equal to (a * 2^b) mod 2^w, for every shift amount including b >= w (result 0) and exact multiples of the word size.", "quantifier": "every width 1..2^32-1 and every pair of values of that width, in debug and in release builds", "why_tests_cant": "Carries, word boundaries and unused top bits interact differently at every width and value; random tests sample widths of a few hundred bits and essentially never hit the boundary patterns (shift by a multiple of 64, width = 1 mod 64, minimum value).", "anchors": ["src/bv/arithmetic.rs:shift_left,get_shift_amount", "src/bv/ops.rs:declare_arith_bin_fn!(shift_left)"]}
{"id": "C07", "title": "shift_right is division by 2^b", "statement": "For equal width w > 0, a.shift_right(&b) is the w-bit value floor(a / 2^b), 0 when b >= w.", "quantifier": "every width 1..2^32-1 and every pair of values of that width, in debug and in release builds", "why_tests_cant": "Carries, word boundaries and unused top bits interact differently at every width and value; random tests sample widths of a few hundred bits and essentially never hit the boundary patterns (shift by a multiple of 64, width = 1 mod 64, minimum value).", "anchors": ["src/bv/arithmetic.rs:shift_right,get_shift_amount,slice", "src/bv/ops.rs:declare_arith_bin_fn!(shift_right)"]}
{"id": "C08", "title": "arithmetic_shift_right is signed floor division by 2^b", "statement": "For equal width w > 0, a.arithmetic_shift_right(&b) is the w-bit value whose signed interpretation is floor(signed(a) / 2^b), i.e. all sign bits when b >= w.", "quantifier": "every width 1..2^32-1 and every pair of values of that width, in debug and in release builds", "why_tests_cant": "Carries, word boundaries and unused top bits interact differently at every width and value; random tests sample widths of a few hundred bits and essentially never hit the boundary patterns (shift by a multiple of 64, width = 1 mod 64, minimum value).", "anchors": ["src/bv/arithmetic.rs:arithmetic_shift_right", "src/bv/ops.rs:declare_arith_bin_fn!(arithmetic_shift_right)"]}
{"id": "C09", "title": "slice extracts exactly the requested bits", "statement": "For lsb <= msb < w, a.slice(msb, lsb) has width msb-lsb+1 and value floor(a / 2^lsb) mod 2^(msb-lsb+1); slicing the full range is the identity.", "quantifier": "every width, every value and every pair lsb <= msb < width", "why_tests_cant": "Carries, word boundaries and unused top bits interact differently at every width and value; random tests sample widths of a few hundred bits and essentially never hit the boundary patterns (shift by a multiple of 64, width = 1 mod 64, minimum value).", "anchors": ["src/bv/arithmetic.rs:slice,mask_msb", "src/bv/ops.rs:BitVecOps::slice"]}
{"id": "C10", "title": "concat places the operands next to each other", "statement": "For widths wa, wb > 0 with wa+wb < 2^32, a.concat(&b) has width wa+wb and value a * 2^wb + b; slicing it apart gives back a and b, and concat is associative.", "quantifier": "every pair of widths and values", "why_tests_cant": "Carries, word boundaries and unused top bits interact differently at every width and value; random tests sample widths of a few hundred bits and essentially never hit the boundary patterns (shift by a multiple of 64, width = 1 mod 64, minimum value).", "anchors": ["src/bv/arithmetic.rs:concat", "src/bv/ops.rs:BitVecOps::concat"]}
{"id": "C11", "title": "zero_extend / sign_extend preserve the value", "statement": "a.zero_extend(by) has width w+by and the same unsigned value; a.sign_extend(by) has width w+by and the same signed value.", "quantifier": "every width > 0, every by with w+by < 2^32 and every value", "why_tests_cant": "Carries, word boundaries and unused top bits interact differently at every width and value; random tests sample widths of a few hundred bits and essentially never hit the boundary patterns (shift by a multiple of 64, width = 1 mod 64, minimum value).", "anchors": ["src/bv/arithmetic.rs:zero_extend,sign_extend", "src/bv/ops.rs:BitVecOps::zero_extend,BitVecOps::sign_extend"]}
{"id": "C12", "title": "equality means same width and same value", "statement": "a == b (owned/owned, owned/borrowed, borrowed/owned) holds exactly when width and unsigned value agree; a.is_equal(&b) / is_not_equal on equal widths decide equality of the values.", "quantifier": "every pair of values of any widths", "why_tests_cant": "Equality is decided on stored words; it is only right if every way of producing a value yields the same words for the same number, which is a property of all histories.", "anchors": ["src/bv/owned.rs:PartialEq", "src/bv/borrowed.rs:PartialEq", "src/bv/ops.rs:is_equal,is_not_equal", "src/bv/arithmetic.rs:cmp_equal"]}
{"id": "C13", "title": "strict unsigned comparison", "statement": "For equal widths, a.is_greater(&b) iff a > b and a.is_less(&b) iff a < b as unsigned integers.", "quantifier": "every width 1..2^32-1 and every pair of values of that width, in debug and in release builds", "why_tests_cant": "Carries, word boundaries and unused top bits interact differently at every width and value; random tests sample widths of a few hundred bits and essentially never hit the boundary patterns (shift by a multiple of 64, width = 1 mod 64, minimum value).", "anchors": ["src/bv/arithmetic.rs:cmp_greater,is_greater_and_not_less", "src/bv/ops.rs:is_greater,is_less"]}
{"id": "C14", "title": "non-strict unsigned comparison", "statement": "For equal widths, a.is_greater_or_equal(&b) iff a >= b and a.is_less_or_equal(&b) iff a <= b as unsigned integers; in particular every value is >= itself.", "quantifier": "every width 1..2^32-1 and every pair of values of that width, in debug and in release builds", "why_tests_cant": "Carries, word boundaries and unused top bits interact differently at every width and value; random tests sample widths of a few hundred bits and essentially never hit the boundary patterns (shift by a multiple of 64, width = 1 mod 64, minimum value).", "anchors": ["src/bv/arithmetic.rs:cmp_greater_equal", "src/bv/ops.rs:is_greater_or_equal,is_less_or_equal"]}
{"id": "C15", "title": "signed comparison", "statement": "For equal widths w > 0, is_greater_signed, is_greater_or_equal_signed, is_less_signed and is_less_or_equal_signed agree with >, >=, <, <= on the two's complement interpretations.", "quantifier": "every width 1..2^32-1 and every pair of values of that width, in debug and in release builds", "why_tests_cant": "The code itself carries the comment 'TODO: does this actually work?' on the both-negative case; only a proof over all widths answers it.", "anchors": ["src/bv/arithmetic.rs:cmp_greater_signed,cmp_greater_equal_signed,is_neg", "src/bv/ops.rs:is_greater_signed,is_greater_or_equal_signed,is_less_signed,is_less_or_equal_signed"]}
{"id": "C16", "title": "is_negative is the sign of the two's complement value", "statement": "For w > 0, a.is_negative() iff the two's complement interpretation of a is below zero.", "quantifier": "every width > 0 and every value", "why_tests_cant": "Carries, word boundaries and unused top bits interact differently at every width and value; random tests sample widths of a few hundred bits and essentially never hit the boundary patterns (shift by a multiple of 64, width = 1 mod 64, minimum value).", "anchors": ["src/bv/arithmetic.rs:is_neg", "src/bv/ops.rs:is_negative"]}
{"id": "C17", "title": "to_u64 / from_u64", "statement": "a.to_u64() is Some(v) exactly when the unsigned value v is below 2^64, None otherwise; from_u64(v, w).to_u64() = Some(v) whenever v < 2^w.", "quantifier": "every width and value; every u64", "why_tests_cant": "Carries, word boundaries and unused top bits interact differently at every width and value; random tests sample widths of a few hundred bits and essentially never hit the boundary patterns (shift by a multiple of 64, width = 1 mod 64, minimum value).", "anchors": ["src/bv/ops.rs:to_u64,assign_from_u64", "src/bv/owned.rs:from_u64"]}
{"id": "C18", "title": "to_i64 returns the signed value whenever it is representable", "statement": "a.to_i64() is Some(v) exactly when the signed value v lies in -2^63..2^63-1 and None otherwise; from_i64(v, w).to_i64() = Some(v) whenever v fits into w bits.", "quantifier": "every width and value; every i64", "why_tests_cant": "Carries, word boundaries and unused top bits interact differently at every width and value; random tests sample widths of a few hundred bits and essentially never hit the boundary patterns (shift by a multiple of 64, width = 1 mod 64, minimum value).", "anchors": ["src/bv/ops.rs:to_i64,assign_from_i64", "src/bv/owned.rs:from_i64"]}
{"id": "C19", "title": "from_u64 / from_i64 on values that do not fit", "statement": "from_u64(v, w) and from_i64(v, w) yield the w-bit value v mod 2^w in release builds; in debug builds they yield it exactly when v fits (unsigned resp. signed) into w bits and panic otherwise.", "quantifier": "every u64 / i64 and every width 1..2^32-1, both build profiles", "why_tests_cant": "The doc tests only try two literals; the fit test is a bit trick whose correctness depends on all widths.", "anchors": ["src/bv/ops.rs:assign_from_u64,assign_from_i64", "src/bv/arithmetic.rs:mask,mask_msb"]}
{"id": "C20", "title": "Boolean and zero tests", "statement": "from_bool(b).to_bool() = Some(b); to_bool is None for every other width; is_tru / is_fals hold exactly for the 1-bit values 1 / 0; is_zero iff the value is 0; zero(w) is 0 and ones(w) is 2^w - 1.", "quantifier": "every width and value (ones(w): every w > 0)", "why_tests_cant": "Carries, word boundaries and unused top bits interact differently at every width and value; random tests sample widths of a few hundred bits and essentially never hit the boundary patterns (shift by a multiple of 64, width = 1 mod 64, minimum value).", "anchors": ["src/bv/ops.rs:to_bool,is_tru,is_fals,is_zero,clear,assign_ones", "src/bv/owned.rs:zero,ones,tru,fals,from_bool"]}
{"id": "C21", "title": "binary strings round-trip", "statement": "to_bit_str gives exactly w characters, the i-th being the bit w-1-i; from_bit_str of any non-empty string of 0/1 gives a value of width = length that prints back as the same string; from_bit_str(a.to_bit_str()) = a.", "quantifier": "every width and value; every string of binary digits (length < 2^32)", "why_tests_cant": "Three different parsers are used depending on the length of the string.", "anchors": ["src/bv/io/strings.rs:to_bit_str,to_bit_str_internal,from_str_radix,parse_base_2,determine_width_from_str_radix", "src/bv/owned.rs:from_bit_str"]}
{"id": "C22", "title": "hex strings round-trip", "statement": "to_hex_str gives exactly ceil(w/4) lower-case hex digits denoting the value; from_hex_str of any non-empty string of hex digits gives a value of width 4*length denoting the same number and prints back as the lower-cased string.", "quantifier": "every width and value (reading back what was printed: w + 3 < 2^32); every string of hex digits (length < 2^30)", "why_tests_cant": "Three different parsers are used depending on the length of the string.", "anchors": ["src/bv/io/strings.rs:to_hex_str,to_hex_str_internal,parse_base_16,hex_digit_value,determine_width_from_str_radix", "src/bv/owned.rs:from_hex_str"]}
{"id": "C23", "title": "decimal strings round-trip", "statement": "to_dec_str prints the unsigned value in decimal without leading zeros and from_str_radix(s, 10, w) reads it back to the same value.", "quantifier": "every width and value", "why_tests_cant": "Carries, word boundaries and unused top bits interact differently at every width and value; random tests sample widths of a few hundred bits and essentially never hit the boundary patterns (shift by a multiple of 64, width = 1 mod 64, minimum value).", "anchors": ["src/bv/io/strings.rs:to_dec_str,to_dec_str_internal,words_used,words_to_u128,from_str_radix,parse_base_10"]}
{"id": "C24", "title": "signed strings denote the two's complement value", "statement": "to_bit_str_signed / to_hex_str_signed print a '-' exactly for negative values and the digits denote the magnitude of the two's complement value, so that distinct values print differently and parsing the text gives the value back.", "quantifier": "every width > 0 and every value, including the minimum value and width 1", "why_tests_cant": "Carries, word boundaries and unused top bits interact differently at every width and value; random tests sample widths of a few hundred bits and essentially never hit the boundary patterns (shift by a multiple of 64, width = 1 mod 64, minimum value).", "anchors": ["src/bv/io/strings.rs:to_bit_str_signed,to_hex_str_signed,select_words_for_width", "src/bv/ops.rs:to_bit_str_signed,to_hex_str_signed"]}
{"id": "C25", "title": "parsing signed text", "statement": "from_bit_str / from_hex_str of '-' followed by digits gives the two's complement of the number in (bits of the digits)+1 bits; a leading '+' is ignored.", "quantifier": "every string of digits with an optional sign, as long as its number of bits fits in 32 bits (fewer than 2^30 hex digits)", "why_tests_cant": "Carries, word boundaries and unused top bits interact differently at every width and value; random tests sample widths of a few hundred bits and essentially never hit the boundary patterns (shift by a multiple of 64, width = 1 mod 64, minimum value).", "anchors": ["src/bv/io/strings.rs:from_str_radix,determine_width_from_str_radix", "src/bv/owned.rs:from_bit_str,from_hex_str"]}
{"id": "C26", "title": "parsing never produces a value that does not fit", "statement": "from_str_radix(s, radix, w) either returns Ok with a well-formed w-bit value equal to the number denoted by s, or an error: ExceedsWidth if the number does not fit into w bits, InvalidDigit if s is not a number.", "quantifier": "every byte string, radix 2/10/16 and every width", "why_tests_cant": "The result of parsing is only checked by tests that choose the width from the string.", "anchors": ["src/bv/io/strings.rs:from_str_radix,parse_base_2,parse_base_16", "src/bv/owned.rs:from_str_radix", "src/bv/ops.rs:assign_from_str_radix"]}
{"id": "C27", "title": "assign_from_str_radix overwrites completely or not at all", "statement": "If assign_from_str_radix returns Ok the new value depends only on the string (not on the previous contents); if it returns Err the value is unchanged.", "quantifier": "every previous value, every string, radix 2/10/16 and every width", "why_tests_cant": "Tests only parse into freshly zeroed values.", "anchors": ["src/bv/ops.rs:assign_from_str_radix", "src/bv/io/strings.rs:from_str_radix,parse_base_2,parse_base_16"]}
{"id": "C28", "title": "little-endian bytes round-trip", "statement": "to_bytes_le gives ceil(w/8) bytes denoting the value in little-endian; from_bytes_le(bytes, w) is the denoted number mod 2^w as a w-bit value; from_bytes_le(a.to_bytes_le(), w) = a.", "quantifier": "every width and value; every byte string of at most ceil(w/64)*8 bytes", "why_tests_cant": "Carries, word boundaries and unused top bits interact differently at every width and value; random tests sample widths of a few hundred bits and essentially never hit the boundary patterns (shift by a multiple of 64, width = 1 mod 64, minimum value).", "anchors": ["src/bv/io/bytes.rs:to_bytes_le,from_bytes_le", "src/bv/ops.rs:to_bytes_le", "src/bv/owned.rs:from_bytes_le"]}
{"id": "C29", "title": "big integer conversion", "statement": "to_big_uint / to_big_int give the unsigned / signed value; from_big_uint(n, w) = n mod 2^w and from_big_int(z, w) = z mod 2^w; BitVecValue::from(&z).to_big_int() = z and BitVecValue::from(&n).to_big_uint() = n.", "quantifier": "every integer (bit length < 2^32-63) and every width and value", "why_tests_cant": "Carries, word boundaries and unused top bits interact differently at every width and value; random tests sample widths of a few hundred bits and essentially never hit the boundary patterns (shift by a multiple of 64, width = 1 mod 64, minimum value).", "anchors": ["src/bv/io/bigint.rs:to_big_uint,to_big_int,from_big_uint,from_big_int,iter_to_word,count_big_uint_bits,count_big_int_bits,words_to_u32", "src/bv/owned.rs:from_big_int,from_big_uint,From<&BigInt>,From<&BigUint>"]}
{"id": "C30", "title": "single bit access", "statement": "For pos < w, is_bit_set(pos) is bit pos of the value; set_bit(pos) / clear_bit(pos) change exactly that bit and nothing else.", "quantifier": "every width, value and position < width", "why_tests_cant": "Carries, word boundaries and unused top bits interact differently at every width and value; random tests sample widths of a few hundred bits and essentially never hit the boundary patterns (shift by a multiple of 64, width = 1 mod 64, minimum value).", "anchors": ["src/bv/arithmetic.rs:is_bit_set,set_bit,clear_bit", "src/bv/ops.rs:is_bit_set,set_bit,clear_bit"]}
{"id": "C31", "title": "in-place updates act on any history like a plain integer register", "statement": "Any sequence of assign, clear, assign_ones, assign_from_u64, assign_from_i64, set_bit, clear_bit, in-place parsing, writes through words_mut followed by mask_msb, and mask_msb on a value behaves like the same sequence on an integer modulo 2^w, and the value stays well-formed throughout.", "quantifier": "every finite sequence of mutations, every width", "why_tests_cant": "Unbounded histories of mutation.", "anchors": ["src/bv/ops.rs:BitVecMutOps"]}
{"id": "C32", "title": "borrowed values in a shared word store are independent registers", "statement": "With non-overlapping indices into one word slice, get_ref reads exactly the value last written through the same index, a write through get_mut_ref changes only the words of that index, and get_mut_ref of (a,b) / (a,b,c) returns the words of each index.", "quantifier": "every store, every set of disjoint in-range indices, every sequence of writes", "why_tests_cant": "Frame properties range over all layouts and histories.", "anchors": ["src/bv/indexed.rs:BitVecValueIndex,get_ref,get_mut_ref,split_borrow_1,split_borrow_2,move_range", "src/bv/borrowed.rs"]}
{"id": "C33", "title": "mutable and shared views never alias", "statement": "get_mut_ref((a,b)) and get_mut_ref((a,b,c)) panic whenever a source index overlaps the destination (non-empty ranges) or an index is out of range, and succeed otherwise.", "quantifier": "every store and every combination of indices", "why_tests_cant": "Aliasing must be excluded for all layouts.", "anchors": ["src/bv/indexed.rs:split_borrow_1,split_borrow_2"]}
{"id": "C34", "title": "interner gives one index per value and width", "statement": "After any sequence of get_index calls, two values get equal indices iff they have the same width and value.", "quantifier": "every sequence of insertions of values of any width (in a debug build: any non-zero width, a value of width 0 is rejected with a panic) whose different values need at most 2^32 words; repeated values cost nothing. The bound is sharp", "why_tests_cant": "Uniqueness is a property of all insertion histories.", "anchors": ["src/bv/indexed.rs:ValueInterner::get_index"]}
{"id": "C35", "title": "interned values can be read back for ever", "statement": "words().get_ref(get_index(v)) == v right away and after any later insertions.", "quantifier": "every sequence of insertions before and after, within the bound of C34", "why_tests_cant": "Property of all histories.", "anchors": ["src/bv/indexed.rs:ValueInterner::get_index,words,get_ref"]}
{"id": "C36", "title": "interner is_zero / is_one recognise the constants", "statement": "is_zero(get_index(v)) iff v is 0 and is_one(get_index(v)) iff v is 1.", "quantifier": "every history and every value of any width", "why_tests_cant": "Property of all histories and widths.", "anchors": ["src/bv/indexed.rs:ValueInterner::is_zero,is_one,new"]}
{"id": "C37", "title": "dense arrays: a read returns the latest write", "statement": "For a dense array, after any sequence of stores and clears, select(i) is the data of the latest store to i since the last clear (0 after a clear, the default before any store), with the array's data width; other indices are untouched.", "quantifier": "every index width / data width that the constructor accepts, every default and every operation history", "why_tests_cant": "Unbounded histories over four storage layouts.", "anchors": ["src/array/owned.rs:DenseArrayValue,ArrayValue::new_dense,select,store,clear"]}
{"id": "C38", "title": "sparse arrays: a read returns the latest write", "statement": "Same as for dense arrays, for sparse arrays of every index width, including index widths above 64 bits.", "quantifier": "every index width and data width >= 1, every default and every operation history", "why_tests_cant": "Unbounded histories over three storage layouts.", "anchors": ["src/array/owned.rs:SparseArrayValue,ArrayValue::new_sparse,select,store,clear", "src/bv/borrowed.rs:Borrow for BitVecValue"]}
{"id": "C39", "title": "sparse to dense conversion preserves contents", "statement": "make_dense turns the storage into the dense form, keeps index and data width and changes no element.", "quantifier": "every sparse array of a shape that fits a dense array, every hash iteration order, both build profiles", "why_tests_cant": "All contents and all hash orders.", "anchors": ["src/array/owned.rs:From<&SparseArrayValue> for DenseArrayValue,make_dense"]}
{"id": "C40", "title": "dense to sparse conversion preserves contents", "statement": "SparseArrayValue::from(array) has the same widths and the same element at every index.", "quantifier": "every dense array and every hash iteration order", "why_tests_cant": "All contents and all hash orders; tests only use elements below 8.", "anchors": ["src/array/owned.rs:From<&DenseArrayValue> for SparseArrayValue"]}
{"id": "C41", "title": "dense to sparse conversion picks a most frequent element as default", "statement": "The default of the sparse array obtained from a dense one is an element that occurs at least as often as every other one (arrays with at most 2^20 distinct elements).", "quantifier": "every dense array and every hash iteration order", "why_tests_cant": "All contents and all hash orders.", "anchors": ["src/array/owned.rs:From<&DenseArrayValue> for SparseArrayValue,MAX_HASH_TABLE_SIZE_FOR_DEFAULT_SEARCH"]}
{"id": "C42", "title": "non_default_entries lists exactly the non-default elements", "statement": "non_default_entries yields each index whose element differs from default() exactly once, with its element, and nothing else.", "quantifier": "every sparse array reachable by any history", "why_tests_cant": "All histories; relies on the invariant that the default is never stored.", "anchors": ["src/array/owned.rs:non_default_entries,SparseArrayEntryIter,store_u64_u64,store_u64_big"]}
{"id": "C43", "title": "array equality is element-wise", "statement": "a.is_equal(&b) is None iff the shapes differ, otherwise Some(true) iff all elements agree, whatever the storage of a and b; == is the same with None read as false.", "quantifier": "every pair of arrays reachable by any history, every mix of dense and sparse", "why_tests_cant": "Two different histories can produce the same contents in different representations.", "anchors": ["src/array/owned.rs:ArrayValue::is_equal,DenseArrayValue::is_equal,SparseArrayValue::is_equal,is_equal_mixed,PartialEq"]}
{"id": "C44", "title": "arrays from slices", "statement": "ArrayValue::from(&[bool]/&[u8]/&[u64]) has data width 1/8/64, the smallest index width that can address all elements, element i equal to slice[i] and 0 beyond the end. A slice whose padded copy would need 2^63 bytes or more is a panic. A bool slice of more than 2^31 elements panics if one of them is true; otherwise the result is an array from which nothing can be read: selecting at any index of its index width panics.", "quantifier": "every slice (bool: every slice that fits in memory, shorter or longer than 2^31 elements)", "why_tests_cant": "All lengths around powers of two.", "anchors": ["src/array/owned.rs:index_width_from_len,num_elements_from_index_width,From<&[bool]>,From<&[u8]>,From<&[u64]>"]}
{"id": "C45", "title": "dense array size limit", "statement": "A debug build refuses (panics) to create a dense array that needs more than 1 GiB, and every dense array it accepts is usable at all its 2^index_width indices. A release build refuses exactly the arrays that need 2^63 bytes or more.", "quantifier": "every index width and data width", "why_tests_cant": "The limit is far beyond what a test can allocate.", "anchors": ["src/array/owned.rs:approx_dense_storage_size,DENSE_ARRAY_MAX_BYTES,DenseArrayValue::new"]}
{"id": "C46", "title": "fixed point conversion", "statement": "to_unsigned_fixed_point(f) = Some(value / 2^f) whenever the value fits 64 bits; to_signed_fixed_point(f) = Some(signed value / 2^f) for widths up to 64; f <= width.", "quantifier": "every width, value and fraction width <= width", "why_tests_cant": "Carries, word boundaries and unused top bits interact differently at every width and value; random tests sample widths of a few hundred bits and essentially never hit the boundary patterns (shift by a multiple of 64, width = 1 mod 64, minimum value).", "anchors": ["src/bv/ops.rs:to_signed_fixed_point,to_unsigned_fixed_point"]}
{"id": "C47", "title": "Ord is a total order consistent with ==", "statement": "The derived comparison on BitVecValue is a total order and returns Equal exactly for equal values.", "quantifier": "every triple of values of any widths", "why_tests_cant": "Order laws quantify over triples.", "anchors": ["src/bv/owned.rs:derive(Ord, PartialOrd)"]}
{"id": "C48", "title": "owned and borrowed values hash alike", "statement": "Two values that compare equal feed the same data into a Hasher, whether owned or borrowed.", "quantifier": "every pair of values", "why_tests_cant": "Hash/Eq contract for all values.", "anchors": ["src/bv/owned.rs:derive(Hash)", "src/bv/borrowed.rs:derive(Hash)"]}
{"id": "C49", "title": "expressions evaluate as in the theory of bit-vectors", "statement": "Any nesting of the value-producing operations on well-formed operands of matching widths evaluates, without panic and with equal results in debug and release builds, to a well-formed value equal to the value of the same expression over integers modulo 2^w.", "quantifier": "every expression tree of any depth, all widths and constants", "why_tests_cant": "Compositions of any depth; a single unmasked intermediate result corrupts everything downstream.", "anchors": ["src/bv/ops.rs:BitVecOps", "src/bv/arithmetic.rs"]}
{"id": "C50", "title": "zero-width vectors", "statement": "The 0-bit value (zero(0), from_bit_str(\"\"), from_bytes_le([],0)) is accepted by every width-preserving operation: it equals itself, is zero, concatenates neutrally and converts to the empty string / 0 without panicking.", "quantifier": "every operation applied to the 0-bit value, both build profiles", "why_tests_cant": "The 0-bit value takes different paths in every function; tests construct it only for parsing.", "anchors": ["src/bv/ops.rs", "src/bv/arithmetic.rs:mask_msb,is_neg", "src/bv/io/strings.rs:to_bit_str_internal,to_hex_str_internal,from_str_radix"]}
{"id": "C51", "title": "a Value converts only to its own kind", "statement": "TryFrom<Value> for BitVecValue / ArrayValue succeeds with the wrapped payload exactly for the matching variant.", "quantifier": "every Value", "why_tests_cant": "Trivial but universally quantified.", "anchors": ["src/lib.rs:TryFrom<Value>"]}
{"id": "C52", "title": "bit positions beyond the width are rejected or harmless", "statement": "For pos >= w, is_bit_set(pos) panics or returns false, and set_bit(pos) / clear_bit(pos) panic or leave a well-formed value: no call can set a bit at or above the width.", "quantifier": "every width, value and position >= width", "why_tests_cant": "Holds for all positions above the width; the bad positions are those that fall inside the last word, which depends on the width modulo 64.", "anchors": ["src/bv/ops.rs: BitVecOps::is_bit_set, BitVecMutOps::set_bit, clear_bit", "src/bv/arithmetic.rs: is_bit_set, set_bit, clear_bit"]}
{"id": "C53", "title": "array contents survive any mix of operations and conversions", "statement": "Whatever sequence of constructors (new_dense, new_sparse, from slices), stores, clears, make_dense calls, conversions to SparseArrayValue and saves and reloads through serde produced an array, no store or clear on it panics and every select returns the element the sequence of operations calls for. With indices of more than 64 bits a select may panic, but what it returns is that element.", "quantifier": "every history of any length mixing both storage kinds, every index width up to 64 bits (for what select returns: every index width) and every data width, every hash iteration order, both build profiles", "why_tests_cant": "Histories are unbounded and each conversion re-creates the storage from the previous one.", "anchors": ["src/array/owned.rs: ArrayValue, DenseArrayValue, SparseArrayValue, make_dense, From<ArrayValue> for SparseArrayValue"]}
{"id": "C54", "title": "a debug result is also the release result", "statement": "Whatever an API call returns in a debug build it returns in a release build: debug assertions and overflow checks can turn a result into a panic but never change a result, for single calls and for every sequence of calls.", "quantifier": "every API function, all arguments whatsoever (mismatched widths, indices out of range and ill-formed values included), every composition of calls", "why_tests_cant": "Requires comparing two builds on all inputs; a test suite runs in one profile and samples inputs.", "anchors": ["src/bv/ops.rs", "src/bv/arithmetic.rs", "src/bv/io/strings.rs", "src/bv/io/bytes.rs", "src/bv/io/bigint.rs", "src/bv/indexed.rs", "src/array/owned.rs"]}
{"id": "C55", "title": "operands of different widths are rejected", "statement": "Every binary operation and comparison on operands of different widths panics, and so do array accesses with an index or element of the wrong width; == is defined on all pairs and answers false.", "quantifier": "all pairs of values with different widths, all arrays and indices, both build profiles", "why_tests_cant": "Quantifies over all pairs of widths; the release profile computes something instead of panicking.", "anchors": ["src/bv/ops.rs: BitVecOps::add .. is_less_or_equal_signed, BitVecMutOps::assign", "src/bv/owned.rs: PartialEq", "src/bv/borrowed.rs: PartialEq", "src/array/owned.rs: select, store"]}
{"id": "C56", "title": "slices outside the value are rejected", "statement": "slice(msb, lsb) panics when msb is not below the width or msb < lsb.", "quantifier": "every value, every msb and lsb, both build profiles", "why_tests_cant": "The accepted wrong ranges depend on the width modulo 64 and on the profile.", "anchors": ["src/bv/ops.rs: BitVecOps::slice", "src/bv/arithmetic.rs: slice"]}
{"id": "C57", "title": "results wider than a width can express are rejected", "statement": "concat, zero_extend and sign_extend panic when the resulting width would be 2^32 or more.", "quantifier": "all widths whose sum is at least 2^32, both build profiles", "why_tests_cant": "Operands of this size are impractical to allocate in a unit test.", "anchors": ["src/bv/ops.rs: BitVecOps::concat, zero_extend, sign_extend"]}
{"id": "C58", "title": "what the order of BitVecValue compares", "statement": "Ord on BitVecValue orders by width first; values of equal width are ordered by their lowest differing 64-bit digit. Up to 64 bits this is the unsigned order; above it is not, as the documentation warns.", "quantifier": "all pairs of values", "why_tests_cant": "The order of two values depends on the lowest of arbitrarily many digits in which they differ; tests sample a few pairs, mostly of one digit.", "anchors": ["src/bv/owned.rs: derive(PartialOrd, Ord) on BitVecValue", "src/bv/ops.rs: BitVecOps::is_greater"]}
{"id": "C59", "title": "bit-vector arithmetic obeys the usual laws", "statement": "add/sub/negate form a group, and/or/not a Boolean algebra, mul (up to 64 bits) a commutative ring with add; De Morgan, x - y = x + (-y), -x = !x + 1, x + y = (x ^ y) + 2 (x & y), signed order = unsigned order with the sign bit flipped; slicing and concatenating back is the identity; shifts by a constant are slice plus extension.", "quantifier": "all widths and all operands, both build profiles", "why_tests_cant": "Equations between composed calls over all operands of all widths.", "anchors": ["src/bv/ops.rs: BitVecOps", "src/bv/arithmetic.rs"]}
{"id": "C60", "title": "== of arrays is an equivalence relation", "statement": "For arrays produced by any history, a == a; is_equal gives the same answer with the arguments swapped; and a == b, b == c imply a == c.", "quantifier": "all arrays reachable by any history of operations and conversions, dense and sparse in any combination, every hash iteration order, both build profiles", "why_tests_cant": "Histories are unbounded and the comparison takes different code paths per storage kind.", "anchors": ["src/array/owned.rs: ArrayValue::is_equal, PartialEq for ArrayValue"]}
{"id": "C61", "title": "programs over a shared store and arrays compute what they mean", "statement": "A program of assignments, in-place updates, copies between borrowed values, array reads and writes, array clears, conversions to dense storage and conditional jumps leaves in every value and every array element the number its textbook meaning gives, never panics, and does not touch a word no index names. A run that ends in a debug build ends in the same state in a release build.", "quantifier": "all programs, all layouts of values in the store, all array shapes with index width up to 64, any number of steps including loops, both build profiles", "why_tests_cant": "Programs with loops have unboundedly many runs, and the parts interact through the shared store.", "anchors": ["src/bv/indexed.rs: IndexToRef, IndexToMutRef", "src/bv/ops.rs: BitVecOps, BitVecMutOps", "src/array/owned.rs: ArrayValue", "src/array/ops.rs: ArrayOps, ArrayMutOps"]}
{"id": "C62", "title": "the interner stores every value once", "statement": "After any sequence of get_index calls, words() has exactly 8 words plus one per different value from 8 up in up to 64 bits plus the words of each different wider value; asking again for a value changes nothing and returns the same index.", "quantifier": "every sequence of insertions of values of non-zero width; asking again also for values with unused bits set and, in a release build, of width 0", "why_tests_cant": "Growth over all insertion histories.", "anchors": ["src/bv/indexed.rs: ValueInterner::get_index, words"]}
{"id": "C63", "title": "Debug texts", "statement": "{:?} of a bit-vector is its name around exactly width binary digits, so different values have different texts; of an index, its two fields in decimal; of an interner, the number of different short and long values it was given. It never panics.", "quantifier": "all values of all widths including 0, all indices, all insertion histories", "why_tests_cant": "All values, widths and histories.", "anchors": ["src/bv/owned.rs: Debug for BitVecValue", "src/bv/borrowed.rs: Debug for BitVecValueRef, BitVecValueMutRef", "src/bv/indexed.rs: Debug for ValueInterner, derive(Debug) on BitVecValueIndex", "src/lib.rs: derive(Debug) on Value"]}
{"id": "C64", "title": "saved values are loaded unchanged", "statement": "With the serde feature, deserializing what was serialized gives the same bit-vector, and an array of the same storage kind that compares equal and has the same contents; it behaves like the original from then on. Above 64 bits per index a select on either may panic, and what it returns is the element.", "quantifier": "all bit-vectors; all arrays reached by any history of operations, conversions and earlier reloads, in any iteration order of the hash maps", "why_tests_cant": "All values, histories and iteration orders.", "anchors": ["src/bv/owned.rs: derive(Serialize, Deserialize) on BitVecValue", "src/array/owned.rs: derive(Serialize, Deserialize) on ArrayValue, DenseArrayValue, SparseArrayValue"]}
{"id": "C65", "title": "only valid values can be loaded", "statement": "Data that deserializes without error is a valid value.", "quantifier": "all input data", "why_tests_cant": "All possible input trees.", "anchors": ["src/bv/owned.rs: derive(Deserialize) on BitVecValue", "src/array/owned.rs: derive(Deserialize) on DenseArrayValue"]}
{"id": "C66", "title": "no sequence of calls makes an invalid value", "statement": "In a debug build, every bit-vector returned by any sequence of calls of the public API, with any arguments of the right types, is valid: it has the words its width needs and no bit set beyond the width. A release build returns the same whenever the debug build returns.", "quantifier": "all finite trees of constructor, operator and in-place update calls, with all arguments", "why_tests_cant": "The set of call sequences is unbounded; validity is an invariant.", "anchors": ["src/bv/ops.rs: BitVecOps, BitVecMutOps", "src/bv/owned.rs: BitVecValue"]}
{"id": "C67", "title": "misuse never corrupts the layout", "statement": "However calls are misused (mismatched widths, positions beyond the width, overflowing widths, malformed text), in debug and release builds, every bit-vector has exactly as many words as its width needs; mask_msb then makes it valid without changing the bits within the width.", "quantifier": "all finite trees of calls, all arguments, both build profiles", "why_tests_cant": "Unbounded call sequences with adversarial arguments.", "anchors": ["src/bv/ops.rs: BitVecOps, BitVecMutOps::mask_msb", "src/bv/owned.rs: BitVecValue"]}
{"id": "C68", "title": "bit-vectors behave as strings of bits", "statement": "Reading operands from texts of '0' and '1', applying an operation and printing the result is the obvious operation on texts: concat appends, slice(hi, lo) takes the characters for bits hi..lo, shift_right and zero_extend put '0's in front, arithmetic_shift_right and sign_extend copies of the first character, shift_left drops characters in front and appends '0's, not/and/or/xor act on each character, set_bit/clear_bit replace one character, is_bit_set reads one, is_negative looks at the first; == is equality of the texts and the unsigned order of equally long texts is dictionary order.", "quantifier": "all non-empty binary texts shorter than 2^32, all amounts and positions in range, both build profiles", "why_tests_cant": "The project's property tests sample texts of at most 32 characters and stop at one word for most operations.", "anchors": ["src/bv/arithmetic.rs: mod tests, proptest!", "src/bv/ops.rs: BitVecOps", "src/bv/owned.rs: BitVecValue::from_bit_str"]}
{"id": "C69", "title": "bit-vectors agree with big integers", "statement": "Converting integers to bit-vectors of width w, applying an operation and converting back gives the integer result: add, sub, negate and (up to 64 bits) mul modulo 2^w, and exactly when the result fits into w bits; signed and unsigned comparisons and equality of values that fit; and/or/xor/not as two's complement operations on integers; arithmetic_shift_right and shift_right as division rounding down; sign_extend and zero_extend keep the integer; concat and slice as multiplication and division by powers of two.", "quantifier": "all integers, all widths 0 < w < 2^32, both build profiles", "why_tests_cant": "The project's property tests sample pairs of integers of limited size.", "anchors": ["src/bv/arithmetic.rs: mod tests, do_test_arith, do_test_cmp_signed", "src/bv/io/bigint.rs", "src/bv/ops.rs: BitVecOps"]}
{"id": "C70", "title": "exactly which calls panic", "statement": "In a debug build, a call on valid bit-vectors panics for exactly the following arguments and returns for all others: binary operations and comparisons on different widths; arithmetic, shifts, not, negate, ones, mask and signed tests on 0 bits; mul above 64 bits; from_u64 / from_i64 of values that do not fit; slices with msb < lsb or msb > width, or msb = width where that is beyond the last word or gives 2^32 bits; extensions and concatenations of 2^32 bits or more, or of a 0-bit operand to at most 64 bits; single-bit accesses beyond the last word; from_bytes_le of more bytes than the words hold; negative big integers at width 0 and big integers of more than 2^32 - 64 bits; to_dec_str of values of 2^128 or more or widths times 3 of 2^32 or more; fixed-point conversions with more than 63 fraction bits or more fraction bits than bits; texts with a radix outside 2..36 up to 128 bits, or other than 2 and 16 above, or with more hexadecimal digits than the words hold (unless a bad digit is met first). Calls that do not panic in a debug build return the same in a release build.", "quantifier": "every call of the bit-vector API that makes, changes, tests, prints or converts bit-vectors; all valid operands; all other arguments in the range of their types (texts below 2^30 characters, big integers below 2^38 - 64 bits)", "why_tests_cant": "The absence of panics outside the list concerns all widths, values and texts; the list itself is scattered over debug assertions, index checks and overflow checks.", "anchors": ["src/bv/ops.rs: BitVecOps, BitVecMutOps", "src/bv/arithmetic.rs", "src/bv/owned.rs: BitVecValue", "src/bv/io/strings.rs: from_str_radix, to_dec_str", "src/bv/io/bigint.rs", "src/bv/io/bytes.rs"]}
{"id": "C71", "title": "exactly which array calls panic", "statement": "In a debug build an array call panics for exactly the following reasons. new_dense: more than 2^30 bytes (words, for elements above 64 bits), or 2^32 or more one-bit elements that are 1. new_sparse: never. select and store: an index or element of the wrong width; with index widths above 64 bits also reading a non-default element and overwriting one with the default, and nothing else. make_dense of a sparse array: the result is too large, or the elements have more than 64 bits and one of them is not the default, or there are 2^32 or more one-bit elements and one of them is 1 or not the default. Conversion of a dense array to a sparse one: elements of 2 to 8 bits and one of them is 8 or more. Listing the entries: an index width of 0 and a non-default element. is_equal: a sparse and a dense array of the same widths, where the sparse one cannot be made dense.", "quantifier": "all arrays reachable by legal histories, all valid bit-vectors as operands", "why_tests_cant": "The absence of panics concerns every history, index width and element width; the limits are far beyond what tests allocate.", "anchors": ["src/array/owned.rs: ArrayValue, DenseArrayValue, SparseArrayValue"]}
{"id": "C72", "title": "array operands of the wrong width in release builds", "statement": "Release builds do not check the widths of indices and elements. After any sequence of stores that return, with operands of any width, every element read is a valid bit-vector of the width of the array, a store affects exactly the index whose number it was given, arrays that read alike are equal, and the calls that panic are those with a number that is no index.", "quantifier": "all arrays reachable by legal histories, all sequences of stores and clears with valid operands of any width", "why_tests_cant": "Tests run in debug builds, where these calls panic; the outcome depends on the representation the array happens to have.", "anchors": ["src/array/owned.rs: ArrayValue::select, ArrayValue::store, DenseArrayImpl, SparseArrayImpl"]}
{"id": "C73", "title": "parsing is determined for every text", "statement": "For every text, radix and target, parsing has one outcome that depends only on the characters: from_str_radix, from_bit_str, from_hex_str and assign_from_str_radix succeed with the same number, return the same kind of error, or panic in debug and release builds alike; the characters that are too many or bad decide which, and assign_from_str_radix leaves the target with a number that is a function of the text and of what it held before.", "quantifier": "all texts of fewer than 2^30 bytes, whether they denote a number or not, all radices, all widths below 2^32, all previous contents of the target, both build profiles", "why_tests_cant": "Tests parse a handful of texts, mostly well-formed; signs, bad characters, surplus digits and stale contents can be combined at every position, and the code path depends on the width and radix.", "anchors": ["src/bv/io/strings.rs: from_str_radix, parse_base_2, parse_base_16, determine_width_from_str_radix", "src/bv/owned.rs: from_str_radix, from_bit_str, from_hex_str", "src/bv/ops.rs: assign_from_str_radix"]}
{"id": "C74", "title": "operands of different widths in release builds", "statement": "Release builds do not compare the widths of operands. For valid operands of any two widths, each binary operation, comparison and assign has one outcome that depends only on the two widths and the two numbers: and, or, xor, add and sub combine the words both operands have and set the other words of the result to 0; mul and the shifts use the whole second number (its first word, if the first operand has one word); is_equal compares the words both have; the orders compare as many of the most significant words of each as the shorter has; assign copies the words and panics if their count differs. Exactly the listed combinations without words panic, the result always has the width and storage of the first operand, and for equal widths the outcome is that of the debug build.", "quantifier": "all valid operands of any two widths below 2^32, including 0", "why_tests_cant": "Tests run in debug builds, where these calls panic; the outcome depends on the word counts of both operands.", "anchors": ["src/bv/ops.rs: declare_arith_bin_fn, declare_bit_arith_bin_fn, is_equal, is_greater, is_greater_or_equal, is_greater_signed, assign", "src/bv/arithmetic.rs: add, sub, mul, shift_right, arithmetic_shift_right, shift_left, cmp_equal, is_greater_and_not_less, is_neg"]}
{"id": "C75", "title": "which calls panic in release builds", "statement": "In a release build a call on valid values panics for exactly the listed arguments: bit-vectors without bits where the operation looks at a word, multiplication above 64 bits, positions and slices beyond the last stored word, slices that are reversed by exactly one bit or reach beyond the next word boundary, extensions and concatenations whose wrapped-around width leaves too few words, texts, bytes and decimal texts of 2^128 or more as in a debug build, and a negative number whose wrapped-around width is 0. A release build never panics where a debug build does not. A number of 2^32 bits or more is converted into a value of the wrapped-around width.", "quantifier": "all calls that make, change or look at bit-vectors, all valid operands, all arguments of their Rust types, all release builds", "why_tests_cant": "Tests run in debug builds; whether a release build stops or goes on silently depends on widths, positions and word counts without bound.", "anchors": ["src/bv/ops.rs: BitVecOps, BitVecMutOps", "src/bv/arithmetic.rs: slice, zero_extend, sign_extend, concat, mask_msb, is_neg", "src/bv/io/bigint.rs: count_big_uint_bits, count_big_int_bits", "src/bv/owned.rs: From<&BigUint>, From<&BigInt>"]}
{"id": "C76", "title": "what set unused bits do to later calls", "statement": "The last word of a bit-vector has unused bits unless the width is a multiple of 64, and some calls leave them set. For any operands in their full storage, whatever the unused bits: add, sub, mul, not, negate, slice within the width, mask_msb, clear, assign_ones and assign_from_u64/i64 return what they return for the same values without unused bits, and so do is_negative, is_bit_set within the width and to_bit_str. mask_msb removes them. The right shifts ignore those of the value but shift by the whole stored amount; left shifts by a multiple of 64, and, or, xor and the extensions keep them; concat lets those of the lower part fall onto the upper part; the comparisons and the conversions to u64, BigUint and BigInt see the whole stored number. Every binary operation but add, sub and mul, and every comparison, gives a different answer for some reachable values.", "quantifier": "all values of any width in their full storage with any unused bits, both build modes, all arguments", "why_tests_cant": "Tests start from values without set unused bits; the effect depends on which bits are set and on where the width ends in the last word.", "anchors": ["src/bv/ops.rs: BitVecOps, BitVecMutOps", "src/bv/arithmetic.rs: mask_msb, slice, concat, shift_left, shift_right, sign_extend, cmp_equal", "src/bv/io/bigint.rs: to_big_uint, to_big_int"]}
{"id": "C77", "title": "a reference interpreter on plain numbers predicts every program of a debug build", "statement": "Take any program built from the constructors, operations and in-place updates of bit-vectors, with any arguments of the right Rust types, sensible or not. An interpreter that knows only pairs of a width and a number predicts what a debug build does: whether and when it panics, whether it ends in a parse error, and otherwise the width and the exact number the storage of the result holds (unused bits included). A release build does the same wherever the debug build does not panic. Every bit-vector a debug build can make is the result of such a program. Comparing two results answers (or panics) as the interpreter says.", "quantifier": "all finite programs of calls, all arguments in the range of their types (texts below 2^30 characters, big integers below 2^38 bits), all twelve comparisons", "why_tests_cant": "Programs are unbounded in size and arguments; errors, panics and set unused bits of one call feed later ones.", "anchors": ["src/bv/ops.rs: BitVecOps, BitVecMutOps", "src/bv/owned.rs: BitVecValue constructors", "src/bv/arithmetic.rs", "src/bv/io/strings.rs", "src/bv/io/bytes.rs", "src/bv/io/bigint.rs"]}
{"id": "C78", "title": "the answer of every call that looks at a bit-vector is known from its width and its stored number", "statement": "For a bit-vector of width w whose storage holds the number n (unused bits included), the answers of width, is_zero, is_tru, is_fals, is_negative, is_bit_set, to_bool, to_u64, to_i64, to_big_int, to_big_uint, to_bit_str, to_bit_str_signed, to_hex_str, to_hex_str_signed, to_dec_str, to_bytes_le, to_unsigned_fixed_point and to_signed_fixed_point are a fixed function of w and n, written down without words or masks: the digits, bytes, sign, fraction or absence of an answer. Where the function has no answer a debug build panics. Release builds give the same answers. Together with the interpreter for programs this predicts everything a program can observe about a result.", "quantifier": "all widths below 2^32, all stored numbers, all positions and fraction widths, both build modes, all results of programs of calls", "why_tests_cant": "Answers depend on the width, the word boundary, the sign bit and unused bits; there are too many combinations to sample.", "anchors": ["src/bv/ops.rs: BitVecOps", "src/bv/arithmetic.rs: is_neg, word_to_bool", "src/bv/io/strings.rs: to_bit_str, to_hex_str, to_dec_str, to_bit_str_signed, to_hex_str_signed", "src/bv/io/bytes.rs: to_bytes_le", "src/bv/io/bigint.rs: to_big_int, to_big_uint"]}
{"id": "C79", "title": "the project's property tests pass for every input, not only the generated ones", "statement": "Each property test of the project (is_neg, concat, slice, the three shifts, zero and sign extension, addition, subtraction, multiplication, the comparisons, the round trips through big integers, bytes, binary, hexadecimal and decimal texts, hashing, interning) asserts an equality between a call and an independent computation. The assertion holds for every input of the kind the generator describes, of every length, in debug and release builds.", "quantifier": "all texts, numbers, amounts, byte sequences and widths the generators describe, without their length limits, both build modes", "why_tests_cant": "The generators stop at 32 digits or 1024 bits and draw a few hundred to two thousand samples; the inputs on which four of the tests fail lie outside of what they can draw.", "anchors": ["src/bv/arithmetic.rs: mod tests", "src/bv/borrowed.rs: mod tests", "src/bv/indexed.rs: mod tests", "src/bv/io/strings.rs: mod tests", "src/bv/io/bigint.rs: mod tests", "src/bv/io/bytes.rs: mod tests"]}
{"id": "C80", "title": "an array keeps its type, and its kind until make_dense is called", "statement": "is_dense and is_sparse always give opposite answers. An array made by new_sparse is sparse until make_dense is called, and dense from then on; arrays made by new_dense or from a slice are always dense. store and clear change neither the kind nor index_width and data_width, even with operands of the wrong widths in a release build. index_width and data_width are what new_dense / new_sparse were given, and for slices the smallest index width with an index for each element. make_dense returns a dense array unchanged. The Debug text names the kind.", "quantifier": "all ways to make an array, all sequences of store, clear and make_dense with any operands, all hash orders and probe sequences, both build modes", "why_tests_cant": "The claim ranges over all histories; the tests check the kind after one call.", "anchors": ["src/array/owned.rs: ArrayValue::is_dense, is_sparse, make_dense, new_dense, new_sparse", "src/array/ops.rs: ArrayOps, ArrayMutOps"]}
{"id": "C81", "title": "a caught panic leaves the value valid", "statement": "When an in-place call panics and the panic is caught, the value it worked on can still be used. A bit-vector is a valid value of the same width: assign, set_bit, clear_bit, mask_msb, a write to words_mut and assign_from_str_radix (texts below 2^30 characters) leave it as it was, assign_from_u64 and assign_from_i64 leave the number they were given, cut to the width. If it is a view into a shared store, no other value of the store changes. store, clear and make_dense of an array and get_index of the interner change nothing when they panic, so a history with caught panics ends like the history without the calls that panicked.", "quantifier": "all values, all histories of calls with any operands, every panic at every point of a call, all hash orders and probe sequences, both build modes", "why_tests_cant": "The panics happen at different points of a call and depend on operands, length and build mode; a test sees one of them, and the project's tests with should_panic do not look at the value afterwards.", "anchors": ["src/bv/ops.rs: BitVecMutOps", "src/bv/arithmetic.rs: mask_msb, sign_extend, negate_in_place", "src/bv/io/strings.rs: from_str_radix, parse_base_2, parse_base_16", "src/array/owned.rs: DenseArrayValue::store, SparseArrayValue::store, ArrayValue::make_dense", "src/bv/indexed.rs: ValueInterner::get_index"]}
{"id": "C82", "title": "a reference interpreter predicts every program over arrays of a debug build", "statement": "Take any program that makes arrays (new_dense, new_sparse, from slices, clone), reads them, stores, clears and makes them dense, saves and reloads them with serde, compares them with is_equal and asks for their kind and widths, with valid bit-vectors of any width as operands, and catch every panic. An interpreter that knows an array only as its kind, its type, one number for the elements never written and the list of writes predicts every observation: each panic, each element read, each answer of is_equal, each kind and type. A release build shows the same observations if no call of the debug build panics. The hash tables have no influence.", "quantifier": "all finite programs over any number of array variables, all valid operands, all default elements of at least one bit, all sizes of dense arrays, index widths of sparse arrays up to 64 bits, slices of up to 2^62 bytes, 2^59 words or 2^31 bools, all hash orders and probe sequences; conversion of dense arrays to sparse ones is not a call of these programs (its default depends on the hash order, see C41)", "why_tests_cant": "Programs are unbounded, and whether make_dense or is_equal panics depends on the whole history of writes.", "anchors": ["src/array/owned.rs: ArrayValue, DenseArrayValue, SparseArrayValue", "src/array/ops.rs: ArrayOps, ArrayMutOps"]}
{"id": "C83", "title": "a reference interpreter predicts every program over bit-vectors of a debug build", "statement": "Take any program over bit-vector variables that uses constructors, clone, the arithmetic, bitwise, shift, slice, extend and concat operations, the in-place updates (assign, clear, ones, mask, assign_from_u64, assign_from_i64, set_bit, clear_bit, writes to words_mut, assign_from_str_radix), comparisons, queries, conversions to numbers and texts, and serde, with arguments that may or may not make sense, and catch every panic. An interpreter that knows a bit-vector only as a width and the number in its storage predicts every observation: each panic, each parse error and its kind, each answer, each number and text, and what a variable holds after an update that panicked or failed. A release build shows the same observations if no call of the debug build panics.", "quantifier": "all finite programs over any number of variables, all arguments in the range of their Rust types (texts below 2^30 characters)", "why_tests_cant": "Programs are unbounded, values with unused bits set by one call change the results of later calls, and a test looks at one call at a time.", "anchors": ["src/bv/ops.rs: BitVecOps, BitVecMutOps", "src/bv/owned.rs: BitVecValue", "src/bv/arithmetic.rs", "src/bv/io/strings.rs"]}
{"id": "C84", "title": "values saved in a positional format are read back from a stream", "statement": "Formats that write struct fields by position and enum variants by index (bincode, postcard) read back what self-describing formats read back. Any number of bit-vectors and arrays written one after the other is read back in the same order: bit-vectors identical (unused bits included), arrays of the same kind, type and contents, and equal under is_equal; what follows in the stream is untouched. A stream that lost its end gives an error, never a value. Different bit-vectors have different streams, and a bit-vector read from any stream has a width and words in range and is written back as the same stream. The readers accept exactly the streams of a fixed grammar; a number out of the range of its type and an unknown variant are errors.", "quantifier": "all bit-vectors, all arrays a program can build, all sequences of them, all positions at which a stream can be cut, all streams of numbers, all hash orders", "why_tests_cant": "The project has no test for serde at all; the claim ranges over unbounded streams and every cut.", "anchors": ["src/bv/owned.rs: BitVecValue derive(Serialize, Deserialize)", "src/array/owned.rs: ArrayValue, ArrayImpl, DenseArrayValue, DenseArrayImpl, SparseArrayValue, SparseArrayImpl derive(Serialize, Deserialize)"]}
{"id": "C85", "title": "a reference interpreter predicts programs over the whole library", "statement": "Take any program over bit-vector variables, array variables and the handles of one value interner, in which values move freely between them: bit-vectors are computed, parsed, updated in place and compared, used to create arrays, as indices and as elements of arrays, read back from arrays, interned, and fetched again through their handles; all panics are caught. An interpreter that knows a bit-vector as a width and a number, an array as a list of writes and a handle as the value it stands for predicts every observation of a debug build: each panic, each error, each answer, and which handles are equal, zero or one. A release build shows the same observations if no call is predicted to panic. The interpreter makes no prediction for array operands with unused bits set, elements of width 0, sparse arrays with indices of more than 64 bits, and interners of more than 2^32 words.", "quantifier": "all finite programs over any number of variables of the three kinds, all arguments in the range of their Rust types, all hash orders", "why_tests_cant": "Programs are unbounded and mix the parts of the library, which the project's tests exercise separately.", "anchors": ["src/bv/ops.rs: BitVecOps, BitVecMutOps", "src/bv/owned.rs: BitVecValue", "src/bv/indexed.rs: ValueInterner, BitVecValueIndex, IndexToRef", "src/array/owned.rs: ArrayValue", "src/array/ops.rs: ArrayOps, ArrayMutOps"]}
{"id": "C86", "title": "a reference interpreter predicts release builds beyond the first debug panic", "statement": "Take any program over bit-vector variables that creates, parses, copies, combines, compares, inspects, reloads and updates them in place, with arguments of any kind (numbers too large for their width, operands of different widths, reversed or too long slices, extensions past 2^32 bits), and catches all panics. An interpreter that knows a bit-vector only as a width and a number predicts every observation of a release build: which calls still panic although debug assertions are off, and otherwise the exact answer, including the bits that a debug build would never have let through.", "quantifier": "all finite programs over any number of variables, all arguments in the range of their Rust types", "why_tests_cant": "Programs are unbounded, tests run in debug builds, and the behaviour without debug assertions differs from them exactly on the inputs that the tests do not use.", "anchors": ["src/bv/ops.rs: BitVecOps, BitVecMutOps", "src/bv/owned.rs: BitVecValue", "src/bv/arithmetic.rs: slice, concat, zero_extend, sign_extend, assert_unused_bits_zero", "src/bv/io/bigint.rs", "src/bv/io/strings.rs"]}
{"id": "C87", "title": "a reference interpreter predicts array programs with any operands in both build profiles", "statement": "Take any program over array variables that creates dense and sparse arrays, clones, reads, writes, clears, compares, converts and reloads them, with indices and elements of any width and with any bits of their storage set, and catches all panics. An interpreter that knows an array only by the numbers written into it predicts every observation, in debug and in release builds: which calls panic, and otherwise the exact element, answer, kind and type, whatever order the hash tables use. It is silent only after writes to elements beyond 2^32, where a converted sparse array depends on that order.", "quantifier": "all finite programs over any number of arrays, all operands with storage for their width, both build profiles, all hash functions and iteration orders; sparse arrays with indices of at most 64 bits", "why_tests_cant": "Programs are unbounded, and operands of the wrong width or with unused bits set only fail an assertion in debug builds; what release builds store, cut off or compare instead is visible only in later calls.", "anchors": ["src/array/owned.rs: ArrayValue, DenseArrayValue, SparseArrayValue", "src/array/ops.rs: ArrayOps, ArrayMutOps"]}
{"id": "C88", "title": "a reference interpreter predicts programs over the whole library exactly, in both build profiles", "statement": "Take any program over bit-vector variables, array variables and handles of one value interner, in which results of one part are operands of another (a sum is stored in an array, an element is interned, a fetched value is an index) and which catches all panics. An interpreter that knows bit-vectors as a width and a number, arrays as the numbers written into them, and handles as the values they stand for predicts every observation, in a debug build and in a release build, also after calls that only a release build lets through and for values with unused bits set: which calls panic, the exact answers, which handles are equal and which are the constants 0 and 1.", "quantifier": "all finite programs over any number of variables, all arguments in the range of their Rust types, both build profiles, all hash functions and iteration orders; sparse arrays with indices of at most 64 bits; silent for writes beyond element 2^32 that are later converted and for interners of more than 2^32 words", "why_tests_cant": "Programs are unbounded, values that violate an assertion in debug builds travel on through other parts of the library in release builds, and hash tables add nondeterminism.", "anchors": ["src/bv/ops.rs: BitVecOps, BitVecMutOps", "src/bv/owned.rs: BitVecValue", "src/bv/indexed.rs: ValueInterner, BitVecValueIndex, IndexToRef", "src/array/owned.rs: ArrayValue", "src/array/ops.rs: ArrayOps, ArrayMutOps"]}
{"id": "C89", "title": "a reference interpreter predicts programs over a shared vector of words exactly, in both build profiles", "statement": "Take any program that keeps bit-vectors in one vector of words and names them by indices of any kind: overlapping, of any width, or reaching beyond the end. It reads and compares values through shared views, changes them in place through mutable views (with its own variables as arguments), copies and computes from one or two views into another, writes single words, and catches all panics. An interpreter that knows the vector as one number and its length predicts every observation in both build profiles: which index combinations panic, what every view shows afterwards, also after a panic in the middle of an update, and that nothing outside the written view changes.", "quantifier": "all finite programs, all vector lengths, all indices and widths of 32 bits, all arguments in the range of their Rust types, both build profiles", "why_tests_cant": "Indices may overlap in unboundedly many ways, programs are unbounded, and what a partial update leaves behind is visible only through other views.", "anchors": ["src/bv/indexed.rs: BitVecValueIndex, IndexToRef, IndexToMutRef, split_borrow_1, split_borrow_2, move_range", "src/bv/ops.rs: BitVecOps, BitVecMutOps", "src/bv/borrowed.rs: BitVecValueRef, BitVecValueMutRef"]}
{"id": "C90", "title": "multi-line Debug texts", "statement": "{:#?} of a bit-vector inside a Value is three lines, the second one with exactly width binary digits indented by four spaces; of an index, one line per field with the field in decimal; of a parse error, its kind. Different bit-vectors and different indices have different texts, and formatting never panics.", "quantifier": "all values of all widths including 0, all indices", "why_tests_cant": "All values, widths and indices.", "anchors": ["src/lib.rs: derive(Debug) on Value", "src/bv/indexed.rs: derive(Debug) on BitVecValueIndex", "src/bv/io/strings.rs: derive(Debug) on ParseIntError, IntErrorKind", "src/bv/owned.rs: Debug for BitVecValue", "src/array/owned.rs: Debug for ArrayValue"]}
{"id": "C91", "title": "a reference interpreter predicts programs over the library and a shared vector of words together", "statement": "Take any program that mixes the calls of C88 (bit-vectors, arrays, an interner) and of C89 (views of one vector of words) on the same bit-vector variables, asks for the order of two bit-vectors, for what they write into a hasher and for debug texts, and catches all panics. One interpreter, which knows numbers only, predicts every observation in both build profiles. It is the interpreter of C88 on programs without words and that of C89 on programs with words only. It is silent about a call only if that interns a value when 2^32 words may be in use, or converts or compares a sparse array that was written at an index of 2^32 or more.", "quantifier": "all finite programs, all lengths of the vector, all arguments in the range of their Rust types, both build profiles, all hash functions and iteration orders; sparse arrays with indices of at most 64 bits", "why_tests_cant": "Programs are unbounded and values travel between parts of the library in unboundedly many ways; hash tables add nondeterminism.", "anchors": ["src/bv/ops.rs: BitVecOps, BitVecMutOps", "src/bv/owned.rs: BitVecValue (Ord, Hash, Debug)", "src/bv/indexed.rs: ValueInterner, BitVecValueIndex, IndexToRef, IndexToMutRef", "src/array/owned.rs: ArrayValue", "src/array/ops.rs: ArrayOps, ArrayMutOps"]}
{"id": "C92", "title": "array programs with indices of any width: exactly these behaviours", "statement": "Take any program over array variables (create, copy, read, write, clear, convert to dense, compare, save and reload, ask for kind and widths) that catches all panics, with indices and elements of any width, including sparse arrays with indices above 64 bits and sparse arrays written beyond element 2^32. An interpreter that knows numbers only takes as argument, for each call, whether a search for a missing key meets an entry with a similar hash and in which order entries are visited. The lists of observations it can give are exactly those that the program can make with some hash tables, in both build profiles. Where the interpreter of C87 predicts something, the chances do not matter.", "quantifier": "all finite programs, all widths, all operands with the storage for their width, both build profiles, all hash functions and iteration orders, also if they change from call to call", "why_tests_cant": "A test sees one behaviour of the hash tables; the property is about the set of all behaviours of all programs.", "anchors": ["src/array/owned.rs: ArrayValue, SparseArrayValue, From<&SparseArrayValue> for DenseArrayValue", "src/array/ops.rs: ArrayOps, ArrayMutOps", "src/bv/borrowed.rs: Borrow<BitVecValueRef> for BitVecValue"]}
{"id": "C93", "title": "array programs with every public operation: exactly these behaviours", "statement": "Take the programs of C92 and add the remaining public operations on arrays: conversion to a sparse array, listing the entries that differ from the default, asking for the default, and asking for the number of elements and of words per element. An interpreter that knows numbers only takes, besides the chances of C92, the order in which keys of more than 64 bits are visited and the preferred one among the most frequent elements. The lists of observations it can give are exactly those that the program can make with some hash tables, in both build profiles. In particular the default of a converted array is one of its most frequent elements (among those counted before more than 2^20 different ones are seen), any of the most frequent ones is possible for elements of 9 bits and more, the greatest is chosen for elements of up to 8 bits, and the conversion panics if such an element is 8 or more.", "quantifier": "all finite programs, all widths, all operands with the storage for their width, both build profiles, all hash functions and iteration orders, also if they change from call to call", "why_tests_cant": "A test sees one behaviour of the hash tables; the property is about the set of all behaviours of all programs.", "anchors": ["src/array/owned.rs: From<&DenseArrayValue> for SparseArrayValue, From<ArrayValue> for SparseArrayValue, SparseArrayValue::non_default_entries, SparseArrayValue::default, SparseArrayIter", "src/array/ops.rs: ArrayOps::num_elements, ArrayOps::words_per_element"]}
{"id": "C94", "title": "programs with every operation of the library: exactly these behaviours", "statement": "Take programs that mix, in any order, calls on bit-vectors, arrays of any index width, a value interner and views of a shared vector of words, including the conversion between sparse and dense arrays in both directions, entries, defaults, comparison, order, hashing and Debug texts. An interpreter that knows numbers only takes one piece of luck for each call, for what hash tables decide. The lists of observations it can give, panics included, are exactly those that the program can make with some hash tables, in both build profiles; the interpreter is silent about no program. Values flow freely between the parts: an element read from an array, the default of a sparse array or a value fetched from the interner can be any later operand. Handles may come from the interner or be made by the program, and may be used with the words of the interner or as indices into the shared vector; == of arrays and the texts of handles and of the interner are observed too. The interner is described without a bound on its size: a handle is the width and the place of the value among the words stored so far, modulo 2^32, and fetching reads what is there. In particular after the 64-bit numbers 0 to 2^32 are interned the last handle is said to be that of zero and fetching it gives zero. Fetching with a handle that an interner has given never panics, however many values are interned.", "quantifier": "all finite programs, all widths, all operands with the storage for their width, any number of interned values, all lengths of the shared vector, both build profiles, all hash functions and iteration orders, also if they change from call to call", "why_tests_cant": "The programs and the behaviours of the hash tables are infinitely many, and the interner only fails after more than 2^32 words.", "anchors": ["src/bv/owned.rs", "src/bv/arithmetic.rs", "src/bv/indexed.rs: ValueInterner::get_index, ValueInterner::words, ValueInterner::is_zero, ValueInterner::is_one, BitVecValueIndex::new, impl Debug for ValueInterner, IndexToRef, IndexToMutRef", "src/array/owned.rs: impl ArrayOps for ArrayValue, impl PartialEq for ArrayValue", "src/array/ops.rs"]}
{"id": "C95", "title": "parsing texts of any length", "statement": "Parsing is determined for every text that memory can hold, in both build profiles: whether assign_from_str_radix succeeds, fails or panics and which number the target holds afterwards, also after a panic, and what from_str_radix, from_bit_str and from_hex_str return. Texts of fewer than 2^30 digits, targets of at most 128 bits and fewer than 2^32 binary digits are treated as in C73, and a panic then leaves the target unchanged. Longer texts are never accepted by targets of more than 128 bits; a release build may have replaced words of the target before it panics, and a bad digit may be reported first. The width that from_bit_str and from_hex_str choose is counted modulo 2^32: a release build turns 2^30 zeros followed by up to 32 hexadecimal digits into a value as wide as the last digits only, where a debug build panics.", "quantifier": "all texts of fewer than 2^63 bytes, all radices, all widths, all targets with the storage for their width, both build profiles", "why_tests_cant": "The texts in question have from 2^30 to 2^63 characters, and the position of the first bad digit, the length of the text and the old content all matter.", "anchors": ["src/bv/io/strings.rs: from_str_radix, parse_base_2, parse_base_16, determine_width_from_str_radix", "src/bv/ops.rs: BitVecMutOps::assign_from_str_radix", "src/bv/owned.rs: BitVecValue::from_str_radix, from_bit_str, from_hex_str"]}
{"id": "C96", "title": "big integers of any size", "statement": "Converting a BigUint or a BigInt without a given width is determined for numbers of any size, in both build profiles. Up to 2^32 - 64 bits the result has as many bits as the number (one more for a BigInt) and its value. Beyond that a debug build panics, unless the number has more than 2^38 - 64 bits: then the 64-bit digits are counted modulo 2^32, and both builds may return a result that is cut to its low bits without a panic; a number of exactly 2^38 bits turns into a value without bits. A release build always takes the number of bits modulo 2^32 (when any digit is counted) and keeps that many low bits. Only a negative BigInt for which the count of bits comes out as zero makes a release build panic.", "quantifier": "all integers, both build profiles", "why_tests_cant": "The numbers in question have from 2^32 to more than 2^38 bits.", "anchors": ["src/bv/io/bigint.rs: count_big_uint_bits, count_big_int_bits, iter_to_word, from_big_uint, from_big_int", "src/bv/owned.rs: From<&BigInt> for BitVecValue, From<&BigUint> for BitVecValue"]}
{"id": "C97", "title": "programs with every operation, texts and big integers of any size", "statement": "What a program can observe is determined exactly, as in C94 (bit-vectors, arrays, an interner, a vector of words; hash tables may behave differently at each call), when its texts may have any length that a 64-bit machine can hold and its big integers any size: parsing into a variable, into a clone and into a view of the vector of words, including what a panic in the middle leaves for the rest of the program. On the programs of C94 the description is the same. A program that catches the panic of parsing 2^32 + 1 zeros into 130 ones finds the lowest word cleared in a release build, and nothing changed in a debug build. A BigUint of exactly 2^38 bits becomes a value of width 0 with no panic. Fetching with a handle from the interner never panics.", "quantifier": "all programs, of any length, with all texts shorter than 2^63 bytes and all big integers, all hash behaviours, both build profiles", "why_tests_cant": "The programs are of any length and the texts in question have billions of digits.", "anchors": ["src/bv/io/strings.rs: from_str_radix", "src/bv/owned.rs: from_str_radix, from_bit_str, from_hex_str, From<&BigInt>, From<&BigUint>", "src/bv/borrowed.rs", "src/bv/indexed.rs", "src/array/"]}
{"id": "C98", "title": "bit-vectors of any shape, loaded from foreign data", "statement": "Deserialising accepts exactly the pairs of a width below 2^32 and a list of 64-bit words of any length. What the library does with such a value is determined by its width, its number of words and the number they hold. is_zero, to_u64, to_big_uint, is_bit_set and slice are right about that number for any shape (panicking only beyond the stored words); owned ==, Ord and Hash agree with each other; in a debug build is_equal, is_greater and is_less are right or panic. and, or, xor, add, sub, mul, not, negate, the three shifts, concat, zero_extend and sign_extend return a value that has the number of words its width asks for, or panic; which, and the number returned, is given for both builds: words beyond the shortest operand or beyond the width are dropped in silence, also in a debug build, and a single word is masked as if it were the last. == between references compares only the words both sides have in a release build: it is not transitive and disagrees with Hash. Signed comparisons and sign_extend look for the sign in the last stored word. to_bool, to_i64, to_big_int, to_bytes_le and the binary, hexadecimal and decimal texts are described for every shape: texts show all stored words, to_i64 gives nothing for a single word of a wider value. set_bit, clear_bit and assign keep the shape.", "quantifier": "all widths below 2^32, all lists of words of any length for each operand, all positions, both build profiles", "why_tests_cant": "The values come from outside the program; every width can come with every number of words.", "anchors": ["src/bv/owned.rs: Deserialize for BitVecValue, PartialEq, Ord, Hash", "src/bv/borrowed.rs: PartialEq for BitVecValueRef", "src/bv/ops.rs: BitVecOps, BitVecMutOps", "src/bv/arithmetic.rs"]}
{"id": "C99", "title": "arrays of any shape, loaded from foreign data", "statement": "Deserialising a dense array accepts exactly the pairs of widths below 2^32 with a row of bits, bytes or words of any length, whatever the widths ask for. select and store find the element of an index by its position in that row and panic when it is not completely inside; positions of bits are cut to 32 bits, those of words wrap in a release build. select returns a well shaped value for bits, bytes and words (a debug build panics when the stored number does not fit the width, a release build cuts it) and the stored words for wider elements. store changes the cells of that one element to what is described for every stored value of any shape, leaves every other cell, the widths and the kind of storage as they were, and panics exactly for the listed values. is_equal compares widths and cells and panics for equal widths with different kinds of storage. clear sets every cell to zero and changes nothing else. Deserialising a sparse array accepts exactly the pairs of widths with any of the three kinds of map, any default and any entries with different keys. select returns the value of the entry or the default, read at the width of the elements; store sets or drops exactly one entry, depending on whether the element equals the default as is_equal sees it, and what it returns could have been loaded; an index kept as a bit-vector cannot be read or set back; is_equal compares widths, defaults and entries, so that an entry that repeats the default counts; an iteration over the entries shows each of them at the array's widths, or panics exactly when one does not fit; clear leaves no entries and the default zero. Which calls panic is part of the description. Any history of stores into a dense array, or into a sparse one whose indices are kept as numbers, goes through exactly when each store is accepted by the array as it was loaded, and afterwards each cell or entry is what the stores to it left there, in order. Making a loaded sparse array of numbers dense writes its entries over a new array filled with the default, and panics exactly when that array cannot be made or an entry does not fit in it; an entry too wide for the elements is kept as far as its byte or word holds it. When the elements are kept as bit-vectors, the entries are stored one after the other, each at its key read at the width of the elements instead of the index; when the indices are, making the array dense always panics. Making a loaded dense array of words sparse turns one of its elements into the default and panics for an array without elements, for a default that cannot be read at the width of the elements, and past 64 bits of index or element when the elements differ; otherwise its entries are exactly the elements that are neither the chosen one nor the default as it was stored. The same holds for bytes and bits, where the most frequent of the first 2^(index width mod 64) elements is chosen, an array that is shorter than that or a byte of 8 or more among them makes the call panic, and an array of bits becomes one of elements of width 1. For elements kept as words the call panics when one of the first 2^(index width mod 64) is not completely there, and past 64 bits of index when they differ; otherwise the entries are exactly those that differ from the chosen one.", "quantifier": "all dense and sparse arrays that can be loaded, all loaded indices and elements of any shape, all hash functions, all histories of stores, both build profiles", "why_tests_cant": "The arrays come from outside the program; every kind of storage can come with every pair of widths and every length.", "anchors": ["src/array/owned.rs: Deserialize for DenseArrayValue, DenseArrayImpl", "src/array/owned.rs: DenseArrayValue::select, store, is_equal, clear", "src/array/owned.rs: Deserialize for SparseArrayValue, SparseArrayImpl; SparseArrayValue::select, store, is_equal, default, non_default_entries, clear", "src/array/owned.rs: From<&SparseArrayValue> for DenseArrayValue", "src/array/owned.rs: From<&DenseArrayValue> for SparseArrayValue"]}
