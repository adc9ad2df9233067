# Formal model of ekiwi/baa in Rocq

## Layout

| file | contents |
|---|---|
| `properties.jsonl` | the properties, in words |
| `rocq/theories/Base.v` | the fragment of Rust semantics used (panics, build profiles, integers, slices) |
| `rocq/theories/Arith.v` | model of `src/bv/arithmetic.rs` |
| `rocq/theories/Strings.v` | model of `src/bv/io/strings.rs` (and of std's integer parsing / printing) |
| `rocq/theories/Bytes.v` | model of `src/bv/io/bytes.rs` |
| `rocq/theories/BigInt.v` | model of `src/bv/io/bigint.rs` |
| `rocq/theories/Bv.v` | model of `src/bv/ops.rs`, `src/bv/owned.rs`, `src/bv/borrowed.rs` |
| `rocq/theories/Indexed.v` | model of `src/bv/indexed.rs` |
| `rocq/theories/Map.v` | `HashMap` as an association list with an arbitrary iteration order |
| `rocq/theories/Array.v` | model of `src/array/ops.rs`, `src/array/owned.rs`, `src/lib.rs` |
| `rocq/theories/Spec.v` | what values denote: the vocabulary of the theorem statements |
| `rocq/theories/TextSpec.v` | digits, signed text and what parsing should give |
| `rocq/theories/IoSpec.v` | byte strings and 32-bit digits as numbers |
| `rocq/theories/RegSpec.v` | in-place updates as functions on numbers |
| `rocq/theories/StoreSpec.v` | word stores and interner histories |
| `rocq/theories/ArraySpec.v` | arrays as functions, mutations, reachable arrays |
| `rocq/theories/ExprSpec.v` | bit-vector expressions: sorts, meaning over integers, evaluation by library calls |
| `rocq/theories/ProfileSpec.v` | a debug result is also the release result |
| `rocq/theories/LawSpec.v` | the laws of arithmetic as pairs of expressions |
| `rocq/theories/MachineSpec.v` | programs over a store and arrays: meaning and execution by library calls |
| `rocq/theories/Fmt.v` | model of the `Debug` implementations |
| `rocq/theories/Pretty.v` | the multi-line `Debug` texts, with std's indenting writer |
| `rocq/theories/Serde.v` | model of the derived serde code, over trees of serde's data model |
| `rocq/theories/CallSpec.v` | every call that makes or changes a bit-vector, and the values reachable by calls |
| `rocq/theories/FmtSpec.v` | binary and decimal numerals inside texts |
| `rocq/theories/ViewSpec.v` | operations on texts of '0' and '1' |
| `rocq/theories/PanicSpec.v` | the list of panicking arguments for every call |
| `rocq/theories/ArrayPanicSpec.v` | limits of dense arrays and of conversions between representations |
| `rocq/theories/ArrayMisuseSpec.v` | what array calls do with operands of the wrong width in a release build |
| `rocq/theories/ParseSpec.v` | what parsing does with every text |
| `rocq/theories/MixedSpec.v` | what release builds do with operands of different widths |
| `rocq/theories/ReleaseSpec.v` | which calls panic in release builds |
| `rocq/theories/DirtySpec.v` | values with unused bits set, and what is measured against them |
| `rocq/theories/InterpSpec.v` | programs of calls, and an interpreter for them that works on pairs of a width and a number |
| `rocq/theories/AnswerSpec.v` | the calls that look at one bit-vector, and their answers computed from a width and a number |
| `rocq/theories/TestSpec.v` | the bodies of the project's property tests |
| `rocq/theories/KindSpec.v` | histories of an array, its kind and its type |
| `rocq/theories/Unwind.v` | the calls that change a value in place as sequences of statements, so that a panic leaves a state |
| `rocq/theories/UnwindSpec.v` | histories in which panics are caught |
| `rocq/theories/ArrayInterpSpec.v` | programs over array variables and a reference interpreter for them |
| `rocq/theories/BvInterpSpec.v` | programs over bit-vector variables and a reference interpreter for them |
| `rocq/theories/Wire.v` | the derived serde code as positional formats use it |
| `rocq/theories/WireSpec.v` | streams of values |
| `rocq/theories/WholeSpec.v` | programs over bit-vectors, arrays and interner handles, and a reference interpreter for them |
| `rocq/theories/ReleaseInterpSpec.v` | the reference interpreter for bit-vector programs of a release build |
| `rocq/theories/RawArraySpec.v` | the reference interpreter for array programs with any operands, in both build profiles |
| `rocq/theories/FullSpec.v` | the reference interpreter for programs over the whole library, in both build profiles |
| `rocq/theories/StoreInterpSpec.v` | the reference interpreter for programs over a shared vector of words, in both build profiles |
| `rocq/theories/AllSpec.v` | the reference interpreter for programs over the library and a vector of words together |
| `rocq/theories/ChanceSpec.v` | the reference interpreter for array programs whose results depend on hash tables, with that chance as an argument |
| `rocq/theories/FullArraySpec.v` | the same with the conversion to sparse arrays, the list of entries, the default and the sizes |
| `rocq/theories/EverySpec.v` | programs with every operation: C91 and C93 together, without limits on index widths or on the interner |
| `rocq/theories/LongSpec.v` | what parsing does with texts of any length: the rest of `ParseSpec.v` |
| `rocq/theories/BigSpec.v` | the width chosen for a big integer of any size |
| `rocq/theories/FreeSpec.v` | the interpreter of C94 with texts and big integers of any size |
| `rocq/theories/LoadSpec.v` | what the operations do with a loaded width and any list of words |
| `rocq/theories/LoadArraySpec.v` | what dense arrays of any shape do, cell by cell |
| `rocq/theories/LoadSparseSpec.v` | what sparse arrays of any shape do, entry by entry |
| `rocq/theories/RepoTests.v` | the project's unit tests, run on the model (tests, not proofs) |
| `rocq/theories/P*.v` | lemmas and proofs |
| `rocq/theories/Properties*.v` | the property theorems, nothing else |

## Modelling decisions

* **Panics.** Every function that can panic returns `res A = Ok a | Panic p`.
  "Does not panic" is therefore part of every theorem that concludes `= Ok ..`.
* **Build profiles.** `mode := Debug | Release`. `debug_assert!` and the
  overflow checks exist in `Debug` only; in `Release` arithmetic wraps. Theorems
  quantify over the mode unless they say otherwise.
* **Words** are `N`; a slice is a `list N`, least significant word first. The
  invariant "each word is below 2^64" is part of `wf`. All wrap-around is written
  explicitly (`mod 2^64`, `mod 2^32`).
* **`&mut`** parameters become an argument (old contents) and a result (new
  contents). Loops over `zip` are structural recursion.
* **Caught panics.** A result of `Panic p` does not say what a `&mut` value looks like
  afterwards. `Unwind.v` models the mutating calls once more, statement by statement,
  for C81; it is proved to agree with the other model. `HashMap::remove` is assumed to
  look for the key before it changes the table, and `Vec` and `HashMap` not to fail for
  lack of memory.
* **Owned and borrowed values** (`BitVecValue`, `BitVecValueRef`,
  `BitVecValueMutRef`) are one record: all operations are trait methods on
  width and words. `SmallVec` is a list.
* **Widths** are `N` below 2^32; `usize` is 64 bits.
* **HashMap** is an association list without duplicate keys. Wherever the code
  iterates, the list goes through an arbitrary permutation `ho`, universally
  quantified in the theorems. For `HashMap<BitVecValue,_>` looked up by a
  borrowed key, whether `Borrow::borrow` (which is `todo!()`) gets called is an
  oracle `probe`, constrained only by what hashing guarantees.
* **num-bigint** is `N`/`Z`, **fraction** is `Q`, std's `from_str_radix` and
  decimal `Display` are modelled explicitly in `Strings.v`.

## Not modelled

That the system runs out of memory (a vector of more than 2^63 - 1 bytes, which is a
panic, is modelled), the data formats behind serde (how a
tree of named fields, `Serde.v`, or a stream of numbers, `Wire.v`, becomes bytes), performance, and the memory safety of Rust itself. The borrow checker's
guarantees (a `&mut` view is exclusive while it lives) are used to justify
modelling a mutable view as read-modify-write.

## Trusted base

* Coq 8.16.1's kernel (including `vm_compute`, used only for concrete witnesses).
* The faithfulness of the model to `/repo`, argued by the citations on each
  definition and tested by running the project's own unit tests on the model
  (`RepoTests.v`).
* `Print Assumptions` is run below every theorem in `Properties*.v`; each one
  reports "Closed under the global context" (no axioms). The seven
  `Coq.ssr.ssrunder.Under_rel.*` parameters that a whole-library check lists come
  from the standard library's `ssrunder` module type, loaded through `ZifyBool`;
  no theorem rests on them.

## Plan per property

`is_bv v w n` = v is the well-formed w-bit value n. `yields r w n` = r returns it.

| id | modelled | how proved |
|---|---|---|
| C01 | `bv_add` | carry-chain induction over words, then masking = mod 2^w |
| C02 | `bv_sub` | same with inverted second operand |
| C03 | `bv_mul` | one-word case proved for all values; wider is `todo!()`: refuted, proved partial |
| C04 | `bv_negate` | carry-chain induction |
| C05 | `bv_and/or/xor/not` | bit-level characterisation of word lists |
| C06 | `bv_shift_left` | bit-level; multiples of 64 leave garbage above the width: refuted, exact result characterised |
| C07 | `bv_shift_right` | via slice |
| C08 | `bv_arithmetic_shift_right` | bit-level: bits above the shifted part are the sign bit |
| C09 | `bv_slice` | bit-level |
| C10 | `bv_concat` | bit-level, then arithmetic |
| C11 | `bv_zero_extend`, `bv_sign_extend` | word-level append; bit-level for the sign |
| C12 | `bv_eq`, `bvref_eq`, `bv_is_equal`, `bv_is_not_equal` | injectivity of the denotation |
| C13 | `bv_is_greater`, `bv_is_less` | lexicographic comparison from the top word |
| C14 | `bv_is_greater_or_equal`, .. | up to 64 bits; wider refuted |
| C15 | signed comparisons | reduction to C13 by sign cases |
| C16 | `bv_is_negative` | top bit = sign |
| C17 | `bv_to_u64`, `bv_from_u64` | word-level |
| C18 | `bv_to_i64`, `bv_from_i64` | word-level; widths >64 not multiple of 64 refuted for negative values |
| C19 | `bv_from_u64`, `bv_from_i64` | both modes, panic characterised |
| C20 | `bv_to_bool`, `bv_is_tru`, .. | direct |
| C21 | `bv_to_bit_str`, `bv_from_bit_str` | induction over digit strings |
| C22 | `bv_to_hex_str`, `bv_from_hex_str` | induction over digit strings |
| C23 | `bv_to_dec_str`, radix 10 parsing | one and two words; wider is `todo!()`: refuted |
| C24 | `bv_to_bit_str_signed`, `bv_to_hex_str_signed` | refuted for the minimum value etc., proved elsewhere |
| C25 | parsing of signed text | from C21/C22 and C04 |
| C26 | `bv_from_str_radix` | refuted (no width check), what holds is characterised |
| C27 | `bv_assign_from_str_radix` | refuted for >128 bits, proved up to 128 bits |
| C28 | `bv_to_bytes_le`, `bv_from_bytes_le` | induction over words / bytes |
| C29 | `bv_to_big_uint`, .. | base 2^32 / 2^64 digit lemmas |
| C30 | `bv_is_bit_set`, `bv_set_bit`, `bv_clear_bit` | bit-level |
| C31 | list of mutations | induction over the history, refinement to `N` modulo 2^w |
| C32 | `get_ref`, `get_mut_ref*` | frame lemmas, induction over the history |
| C33 | `get_mut_ref_2/3` | interval arithmetic, both directions |
| C34-C35 | `interner_get_index` | invariant over histories; the 2^32 word limit is shown sharp |
| C36 | `interner_is_zero/one` | up to 64 bits; wider refuted |
| C37 | dense arrays | refinement to functions, induction over the history |
| C38 | sparse arrays | same; index width above 64 refuted |
| C39 | `dense_of_sparse` | fold over any permutation; >64-bit data in debug builds refuted |
| C40 | `sparse_of_dense` | Bit/U64/Big proved; U8 refuted for elements >= 8 |
| C41 | default of `sparse_of_dense` | counting lemma over any permutation |
| C42 | `sparse_entries` | map invariant + permutation |
| C43 | `array_is_equal` | extensionality; sparse/sparse with different defaults refuted |
| C44 | `array_from_*` | list lemmas; slices that cannot be padded panic; what a bool slice of more than 2^31 elements gives |
| C45 | `dense_new` | limits; `Big` factor 8 and 2^32 one-bit elements refuted; release builds: 2^63 bytes with the index width taken modulo 64, which refutes the claim from 64 on |
| C46 | fixed point | field arithmetic in `Q`; fraction width >= 64 refuted |
| C47 | `bv_cmp` | lexicographic order lemmas |
| C48 | `bv_hash`, `bvref_hash` | injectivity of the denotation |
| C49 | expression evaluator over `bv_*` | structural induction using C01-C11 |
| C50 | all operations at width 0 | case list; several panic: refuted |
| C51 | `value` | direct |
| C52 | bit positions beyond the width | word-level; `set_bit` inside the last word refuted |
| C53 | any mix of array operations and conversions | invariant over the inductive predicate `built` |
| C54 | every function taking a build profile | congruence: `le` between the debug and the release result, through bind, loops and folds |
| C55 | binary operations, array accesses | debug: the assertion is the first step; release refuted by witnesses |
| C56 | `bv_slice` outside the width | debug assertion; exact outcome beyond the width from the slice lemma; refuted by witnesses |
| C57 | `bv_concat`, `bv_zero_extend`, `bv_sign_extend` | overflow check of the width sum; release refuted |
| C58 | `bv_cmp` | lowest differing digit, by induction on the words |
| C59 | expressions over `bv_*` (`LawSpec.v`) | by C49 both sides have a meaning in `N`; each law is then arithmetic |
| C60 | `array_is_equal` | from C43; transitivity refuted for sparse/dense/sparse |
| C61 | `MachineSpec.v` programs | step lemma from C31-C33, C49 and C53; induction on the number of steps |
| C62 | `interner_get_index` | counting invariant: the keys are a permutation of the different values |
| C63 | `debug_*` | from C21; numerals contain no separator |
| C64 | `ser_*`, `de_*` | a reload is a constructor of `built`; reordering a map keeps its contents |
| C65 | `de_bv`, `de_array` | two counterexamples; integer ranges; `mask_msb` repairs the value |
| C66 | all `bv_*` calls (`CallSpec.v`) | four counterexamples; per call: returning in debug implies a valid result (from C01-C30, C56); induction on the tree of calls; release by C54 |
| C67 | all `bv_*` calls (`CallSpec.v`) | every word-level function keeps the number and range of the words, for any input and profile; induction on the tree of calls |
| C68 | `bv_*` between `bv_from_bit_str` and `bv_to_bit_str` | texts as bit functions; from C05-C16, C21, C30 |
| C69 | `bv_*` between `bv_from_big_int`/`_uint` and `bv_to_big_int`/`_uint` | two's complement bits of integers; from C01-C16, C29 |
| C70 | every call of CallSpec.v, and every test, conversion and text output, in debug mode | the list of panicking arguments in PanicSpec.v; by cases from the theorems about each call, plus the exact stopping point of the wide hexadecimal parser |
| C71 | `array_new_dense`, `array_new_sparse`, `array_select`, `array_store`, `array_make_dense`, `sparse_of_array`, `sparse_entries`, `array_is_equal` | the limits in ArrayPanicSpec.v; from the invariant of `built` and the exact steps of each conversion; two hash functions that disagree for index widths above 64 bits |
| C72 | `array_select`, `array_store`, `array_clear` in release mode | a weaker invariant per representation (cells of at most 64 bits, one bit-vector, blocks of words) kept by stores with operands of any width; induction on the history; five counterexamples |
| C73 | `bv_from_str_radix`, `bv_assign_from_str_radix`, `bv_from_bit_str`, `bv_from_hex_str` | a reference reader in ParseSpec.v on numbers and digit counts; induction over the digits of the word-wise parsers, with the number left behind after a bad digit; the one- and two-word parsers by their first bad or surplus digit |
| C74 | the binary operations, comparisons and `assign` in release builds | a reference function of the two widths and numbers in MixedSpec.v; the word loops stop at the shorter operand, so they are the equal-length loops on a prefix (suffix for the order); shifts by replacing the amount with one of the same width |
| C75 | every call and question in release builds | the list in ReleaseSpec.v; calls that a debug build accepts return by C70, the rest is settled call by call: widths wrap around, and what remains are the index and slice checks on the stored words |
| C76 | every operation on values whose unused bits are set | the word-level lemmas behind C01-C20 hold for any words; they are restated for the number the storage holds, which determines the words, so two calls with the same stored result are equal |
| C77 | programs of calls and a reference interpreter on numbers | one lemma per call: the result on any stored operands (C76), the panics (C70), the parser (C73); then induction on the program; C66 carries it to release builds |
| C78 | the answers of all calls that look at one value, on any stored number | one lemma per call on any stored operand (C76), rendering lemmas of the text calls restated without the width bound; composed with C77 |
| C79 | the bodies of all property tests of the project, as functions of their random inputs | run each on arbitrary inputs with the correctness lemmas of the calls it makes; for the four that can fail an exact condition (if and only if) |
| C80 | `is_dense`, `is_sparse`, `make_dense`, the widths, for histories with any operands | induction over the history; the invariant says that the default of a sparse array has the data width |
| C81 | in-place calls as sequences of reads and writes of the state; an ending is a return or a panic, both with the state at that point | erasure to the model of the other files (same result, same panic); no call writes before its last possible panic, except the two conversions, whose words are already masked when the final debug assertion fails; induction over the digits for the parsers |
| C82 | programs as lists of calls on array variables, panics caught; a reference state is a kind, a type, one number for the elements never written and the list of writes | simulation: a relation between arrays and reference states kept by every call (C53, C71, C80, C81 composed), including dense arrays of 2^32 and more one-bit elements, which have no room for any element |
| C83 | programs as lists of calls on bit-vector variables, panics caught; a reference state is a width and a number per variable | simulation: every call keeps the relation `stores` between a bit-vector and its width and number (C73, C76, C77, C78 composed); the leftovers of a panicking update as in C81, extended to values with unused bits set |
| C84 | the derived serde code for positional formats: fields in order, lengths, variant indices, as a stream of numbers | reader by reader: reading what was written gives what the named form gives (C64) and the rest of the stream; every reader consumes a prefix and ignores the rest, so a cut stream fails; a grammar of streams in the specification, and each reader accepts exactly its grammar |
| C85 | the programs of C82 and C83 in one world with an interner; a handle is predicted as the value it stands for | simulation: C82 and C83 step by step for their variables; for the interner the invariant of C34 - C36, extended to values with unused bits set, and the count of stored words (C62), so that handles never wrap while a prediction exists |
| C86 | the programs of C83 in a release build, on operands of any widths | simulation as for C83; every call on any stored operands of any two widths (C70, C76 extended to values with unused bits set), with wrapped widths for the calls that compute one |
| C87 | the programs of C82 with operands of any width and any unused bits, in both build profiles; an array is known by the writes into it (bits, cells or words by kind) | simulation: per kind, an array stands for a list of writes; each operation either panics or carries the relation on; conversion visits the entries in any order; sparse indices of at most 64 bits (beyond: C71); the interpreter is silent only after writes beyond element 2^32, where entries may overlap |
| C88 | the programs of C85 in both build profiles, with any values of the bit-vector variables as operands of arrays and of the interner | simulation put together from C83, C86 and C87; the interner is related to itself without the entry for width 0, which only a release build makes |
| C89 | programs over a vector of words seen through arbitrary indices, and over bit-vector variables, panics caught; the reference state is one number for all words and a width and a number per variable | simulation: a view stores a part of the number (slices of the words), writing back replaces that part; the calls on views are those of C83 and C86; which index combinations panic from the lemmas behind C32 and C33 |
| C90 | `pretty_*`: derived `Debug` with `{:#?}`, through std's indenting writer | the texts of C63 contain no line break, so that each is moved right by four places; injective as in C63 |
| C91 | the programs of C88 and C89 over one set of bit-vector variables, with `bv_cmp`, `bv_hash` and `debug_*` as further calls | the relation is the conjunction of those of C88 and C89; order and hash by induction on the words; silence from the lemmas behind C87 |
| C92 | the programs of C82 with operands and indices of any width; the reference interpreter takes one `chance` per call | simulation as for C87, both ways: for every behaviour of the tables there is a chance, and every chance is realised (every order of the entries is a reordering of the table, by induction on permutations; every answer to a search that `hashing` allows is given by some table) |
| C93 | the programs of C92 with conversion to sparse, entries, default, sizes; one `luck` per call | both directions as for C92; the counting loop with its early exit keeps the counts of a prefix, `max_by_key` after any reordering picks a most frequent element, and every most frequent element is picked after some reordering (put its entry last); invariant: dense arrays of the reference are small enough for the indices not to overflow |
| C94 | the programs of C91 and C93 mixed, one `luck` per call; the interner as a tape of values, handles as places modulo 2^32 | both directions as for C93, step by step with the lemmas of C89, C91 and C93; for the interner an invariant without a bound: the words are those of the tape, and each table maps the words of a value on the tape to its place modulo 2^32; the wrap by induction on the number of interned values |
| C95 | the parsers of `Unwind.v`, which keep the words that a panic leaves, on texts of up to 2^63 bytes | induction on the digits with the number of words still to be written: the text is read group by group until a bad digit or until the count of words, taken modulo 2^32, is used up; two lemmas per way to fail (index out of bounds, subtraction below zero); short texts from C73 and C81; the exact texts of C95_silent and C95_torn by computing the description |
| C96 | `count_big_uint_bits`, `count_big_int_bits` with the 32-bit count of digits, then `iter_to_word` | the top digit has at most 63 leading zeros, so that only the product can overflow; arithmetic modulo 2^32 and 2^38; the value from C29 |
| C97 | the programs of C94, with C95's parsers and C96's conversions | the step lemmas of C94 for all other calls; C95 and C96 for these, through the relation between states of C94 |
| C98 | `de_bv` and the operations of `Bv.v` on any width with any list of words | loops cut to the shortest of the result and the operands; the branch for one word apart; a shift as a loop that stops where the operand ends; the sign taken from the last stored word; texts by the width that ends in the last stored word; the list-level lemmas of C01 - C33 |
| C99 | `de_dense`, `de_sparse` and the arrays of `Array.v`, on any widths with any row of bits, bytes or words, or any map | dense: position of the element, then a replacement in a list; sparse: entries of a list with unique keys, the map lemmas of C38; histories by induction, the array keeping its shape; made dense: a fold over the entries in any order; made sparse, for every kind of storage: one of the counted elements, then a fold over the positions; C98 for the index, the element and the single bits. Left out: in a debug build, maps whose bit-vector keys (store) or values (is_equal) have the wrong number of words, where a panic depends on the hashes |
