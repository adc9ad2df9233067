(** * PropertiesLoad: bit-vectors of any shape, loaded from foreign data (C98).

    Loading checks neither the number of words nor the unused bits (C65).
    LoadSpec.v says what the operations do with such values; [delivers _ w
    (Some n)] includes that the result is well shaped: it has as many words as
    its width asks for. *)

From Coq Require Import String.
From Verif Require Import Base Bv Serde Spec TextSpec CallSpec MixedSpec AnswerSpec LoadSpec.
From Verif Require Import PLoad PLoadShift PLoadConcat PLoadText.
Open Scope list_scope.

(** exactly these values can be loaded *)
Theorem C98_loadable : forall v, loaded v <-> exists t, de_bv t = Some v.
Proof. exact loadable. Qed.
Print Assumptions C98_loadable.

(** the questions that are answered for any shape *)
Theorem C98_questions : forall v, loaded v ->
  bv_is_zero v = (uval v =? 0)
  /\ bv_to_u64 v = (if uval v <? 2 ^ 64 then Some (uval v) else None)
  /\ bv_to_big_uint v = Ok (uval v).
Proof. exact answers_load. Qed.
Print Assumptions C98_questions.

Theorem C98_bit : forall v pos, loaded v ->
  answers (bv_is_bit_set v pos) (if pos <? 64 * count v then Some (N.testbit (uval v) pos) else None).
Proof. exact bit_load. Qed.
Print Assumptions C98_bit.

(** the sign is looked for in the last word there is *)
Theorem C98_negative : forall m v, loaded v ->
  answers (bv_is_negative m v)
    (if (count v =? 0) || ((width v =? 0) && match m with Debug => true | Release => false end)
     then None else Some (N.testbit (uval v) (64 * (count v - 1) + (width v + 63) mod 64))).
Proof. exact negative_load. Qed.
Print Assumptions C98_negative.

(** [==] of owned values, their order and their hash agree, in a release build *)
Theorem C98_owned_equal : forall a b, exists r, bv_eq Release a b = Ok r /\ (r = true <-> a = b).
Proof. exact owned_eq_release. Qed.
Print Assumptions C98_owned_equal.
Theorem C98_owned_equal_debug : forall a b,
  (width a = width b -> count a <> count b -> panics (bv_eq Debug a b))
  /\ (width a <> width b \/ count a = count b -> bv_eq Debug a b = bv_eq Release a b).
Proof. exact owned_eq_debug. Qed.
Print Assumptions C98_owned_equal_debug.
Theorem C98_order : forall a b, bv_cmp a b = Eq <-> a = b.
Proof. exact cmp_equal_same. Qed.
Print Assumptions C98_order.
Theorem C98_hash : forall a b, (bv_hash a = bv_hash b <-> a = b) /\ bvref_hash a = bv_hash a.
Proof. exact hash_same. Qed.
Print Assumptions C98_hash.

(** [==] of references compares only the words both have: it disagrees with
    [==] of owned values and with the hash, and is not transitive. *)
Theorem C98_reference_equal : forall m a b, loaded a -> loaded b ->
  (width a <> width b -> bvref_eq m a b = Ok false)
  /\ (width a = width b -> answers (bvref_eq m a b) (load_equal m a b)).
Proof. exact ref_eq_load. Qed.
Print Assumptions C98_reference_equal.
Theorem C98_reference_equal_odd : exists a b c, loaded a /\ loaded b /\ loaded c
  /\ bvref_eq Release a b = Ok true /\ bvref_eq Release b c = Ok true
  /\ bvref_eq Release a c = Ok false /\ bvref_hash a <> bvref_hash b
  /\ bv_eq Release a b = Ok false.
Proof. exact ref_eq_refuted. Qed.
Print Assumptions C98_reference_equal_odd.

(** comparisons in any build *)
Theorem C98_equal : forall m a b, loaded a -> loaded b ->
  answers (bv_is_equal m a b) (load_equal m a b).
Proof. exact equal_load. Qed.
Print Assumptions C98_equal.
Theorem C98_greater : forall m a b, loaded a -> loaded b ->
  answers (bv_is_greater m a b) (load_greater true m a b).
Proof. exact greater_load. Qed.
Print Assumptions C98_greater.
Theorem C98_greater_or_equal : forall m a b, loaded a -> loaded b ->
  answers (bv_is_greater_or_equal m a b) (load_greater (negb (count a =? 1)) m a b).
Proof. exact greater_equal_load. Qed.
Print Assumptions C98_greater_or_equal.

(** in a debug build they are right about the numbers, or stop *)
Theorem C98_debug_compares : forall a b, loaded a -> loaded b ->
  (width a = width b /\ count a = count b ->
     bv_is_equal Debug a b = Ok (uval a =? uval b)
     /\ bv_is_greater Debug a b = Ok (uval b <? uval a)
     /\ bv_is_less Debug a b = Ok (uval a <? uval b))
  /\ (~ (width a = width b /\ count a = count b) ->
     panics (bv_is_equal Debug a b) /\ panics (bv_is_greater Debug a b)
     /\ panics (bv_is_less Debug a b)).
Proof. exact debug_compare. Qed.
Print Assumptions C98_debug_compares.

(** operations *)
Theorem C98_bitwise : forall m a b, loaded a -> loaded b ->
  delivers (bv_and m a b) (width a) (load_bitwise N.land m a b)
  /\ delivers (bv_or m a b) (width a) (load_bitwise N.lor m a b)
  /\ delivers (bv_xor m a b) (width a) (load_bitwise N.lxor m a b).
Proof. exact bitwise_all. Qed.
Print Assumptions C98_bitwise.
Theorem C98_add : forall m a b, loaded a -> loaded b ->
  delivers (bv_add m a b) (width a) (load_add m a b).
Proof. exact add_load. Qed.
Print Assumptions C98_add.
Theorem C98_sub : forall m a b, loaded a -> loaded b ->
  delivers (bv_sub m a b) (width a) (load_sub m a b).
Proof. exact sub_load. Qed.
Print Assumptions C98_sub.
Theorem C98_mul : forall m a b, loaded a -> loaded b ->
  delivers (bv_mul m a b) (width a) (load_mul m a b).
Proof. exact mul_load. Qed.
Print Assumptions C98_mul.
Theorem C98_not : forall m a, loaded a -> delivers (bv_not m a) (width a) (load_not m a).
Proof. exact not_load. Qed.
Print Assumptions C98_not.
Theorem C98_negate : forall m a, loaded a -> delivers (bv_negate m a) (width a) (load_negate m a).
Proof. exact negate_load. Qed.
Print Assumptions C98_negate.
Theorem C98_slice : forall m v msb lsb, loaded v -> lsb <= msb -> msb < 2 ^ 32 - 1 ->
  delivers (bv_slice m v msb lsb) (msb - lsb + 1) (load_slice m v msb lsb).
Proof. exact slice_load. Qed.
Print Assumptions C98_slice.
Theorem C98_zero_extend : forall m v by_, loaded v -> width v + by_ < 2 ^ 32 ->
  delivers (bv_zero_extend m v by_) (width v + by_) (load_zero_extend v by_).
Proof. exact zext_load. Qed.
Print Assumptions C98_zero_extend.

Theorem C98_shift_left : forall m a b, loaded a -> loaded b ->
  delivers (bv_shift_left m a b) (width a) (load_shift_left m a b).
Proof. exact shift_left_load. Qed.
Print Assumptions C98_shift_left.
Theorem C98_shift_right : forall m a b, loaded a -> loaded b ->
  delivers (bv_shift_right m a b) (width a) (load_shift_right m a b).
Proof. exact shift_right_load. Qed.
Print Assumptions C98_shift_right.
Theorem C98_arith_shift_right : forall m a b, loaded a -> loaded b ->
  delivers (bv_arithmetic_shift_right m a b) (width a) (load_arith_shift_right m a b).
Proof. exact arith_shift_right_load. Qed.
Print Assumptions C98_arith_shift_right.
Theorem C98_sign_extend : forall m v by_, loaded v -> width v + by_ < 2 ^ 32 ->
  delivers (bv_sign_extend m v by_) (width v + by_) (load_sign_extend m v by_).
Proof. exact sign_extend_load. Qed.
Print Assumptions C98_sign_extend.

Theorem C98_concat : forall m a b, loaded a -> loaded b -> width a + width b < 2 ^ 32 ->
  delivers (bv_concat m a b) (width a + width b) (load_concat a b).
Proof. exact concat_load. Qed.
Print Assumptions C98_concat.

(** the sign is looked for in the last stored word of each side *)
Theorem C98_greater_signed : forall m a b, loaded a -> loaded b ->
  answers (bv_is_greater_signed m a b) (load_greater_signed true m a b).
Proof. exact greater_signed_load. Qed.
Print Assumptions C98_greater_signed.
Theorem C98_greater_or_equal_signed : forall m a b, loaded a -> loaded b ->
  answers (bv_is_greater_or_equal_signed m a b) (load_greater_signed false m a b).
Proof. exact greater_equal_signed_load. Qed.
Print Assumptions C98_greater_or_equal_signed.

(** ** Numbers and texts that are read out *)

Theorem C98_bool : forall v, loaded v ->
  gives (bv_to_bool v)
    (if width v =? 1 then if count v =? 0 then None else Some (Some (N.odd (uval v))) else Some None)
  /\ answers (bv_is_tru v) (load_word_is v 1)
  /\ answers (bv_is_fals v) (load_word_is v 0).
Proof. exact bool_load. Qed.
Print Assumptions C98_bool.
Theorem C98_i64 : forall m v, loaded v -> gives (bv_to_i64 m v) (load_i64 m v).
Proof. exact i64_load. Qed.
Print Assumptions C98_i64.
Theorem C98_big_int : forall m v, loaded v -> gives (bv_to_big_int m v) (load_big_int m v).
Proof. exact big_int_load. Qed.
Print Assumptions C98_big_int.
Theorem C98_bytes : forall v, loaded v ->
  bv_to_bytes_le v = low_bytes (N.to_nat (N.min (8 * count v) ((width v + 7) / 8))) (uval v).
Proof. exact bytes_load. Qed.
Print Assumptions C98_bytes.
Theorem C98_bit_str : forall v, loaded v -> gives (bv_to_bit_str v) (load_bit_str v).
Proof. exact bit_str_load. Qed.
Print Assumptions C98_bit_str.
Theorem C98_hex_str : forall m v, loaded v -> gives (bv_to_hex_str m v) (load_hex_str m v).
Proof. exact hex_str_load. Qed.
Print Assumptions C98_hex_str.
Theorem C98_dec_str : forall m v, loaded v ->
  (uval v < 2 ^ 128 -> m = Release \/ width v * 3 < 2 ^ 32 ->
     exists s, bv_to_dec_str m v = Ok s /\ number 10 s = Some (uval v) /\ no_leading_zero s)
  /\ (2 ^ 128 <= uval v \/ (m = Debug /\ 2 ^ 32 <= width v * 3) -> panics (bv_to_dec_str m v)).
Proof. exact dec_load. Qed.
Print Assumptions C98_dec_str.

(** changes in place leave the shape as it was *)
Theorem C98_bits_changed : forall v pos, loaded v ->
  keeps_words (bv_set_bit v pos) v
    (if pos <? 64 * count v then Some (N.setbit (uval v) pos) else None)
  /\ keeps_words (bv_clear_bit v pos) v
    (if pos <? 64 * count v then Some (N.clearbit (uval v) pos) else None).
Proof. exact set_bit_load. Qed.
Print Assumptions C98_bits_changed.
Theorem C98_assign : forall m a b, loaded a -> loaded b ->
  keeps_words (bv_assign m a b) a
    (if admits m a b && (count a =? count b) then Some (uval b) else None).
Proof. exact assign_load. Qed.
Print Assumptions C98_assign.

(** the values of all other theorems are the special case *)
Theorem C98_own_values : forall v, well_shaped v -> loaded v /\ count v = places (width v).
Proof. exact shaped_loaded. Qed.
Print Assumptions C98_own_values.

(** A 70-bit value of three words, one of one word, and one of none: sums drop
    words in silence, also in a debug build; the single word is masked as if it
    were the last. *)
Example C98_example :
  let three := mkbv 70 [1; 2; 3] in
  let one := mkbv 70 [2 ^ 63 + 9] in
  let none := mkbv 70 [] in
  loaded three /\ loaded one /\ loaded none
  /\ (exists t, de_bv t = Some three)
  /\ bv_add Debug three three = Ok (mkbv 70 [2; 4])
  /\ load_add Debug three three = Some (2 ^ 66 + 2)
  /\ panics (bv_add Debug one one)
  /\ bv_add Release one one = Ok (mkbv 70 [18; 0])
  /\ load_add Release one one = Some 18
  /\ bv_add Debug none none = Ok (mkbv 70 [0; 0])
  /\ load_negate Release three = None /\ load_not Debug three = Some (2 ^ 70 - 1 - (2 ^ 65 + 1))
  /\ load_greater true Release three one = Some false
  /\ bv_slice Release three 130 128 = Ok (bv_of 3 3)
  /\ bv_shift_left Debug three (mkbv 70 [1; 0; 0]) = Ok (mkbv 70 [2; 4])
  /\ load_shift_left Debug three (mkbv 70 [1; 0; 0]) = Some (2 ^ 66 + 2)
  /\ bv_shift_right Debug three (mkbv 70 [64; 0; 0]) = Ok (mkbv 70 [2; 0])
  /\ load_shift_right Release one (mkbv 70 [1]) = None
  /\ bv_arithmetic_shift_right Debug (mkbv 70 [0; 0; 32]) (mkbv 70 [69; 0; 0])
     = Ok (mkbv 70 [2 ^ 64 - 2; 63])
  /\ load_arith_shift_right Debug (mkbv 70 [0; 0; 32]) (mkbv 70 [69; 0; 0]) = Some (2 ^ 70 - 2)
  /\ load_greater_signed true Debug three (mkbv 70 [0; 0; 32]) = Some true
  /\ bv_sign_extend Release (mkbv 70 [32]) 60 = Ok (mkbv 130 [2 ^ 64 - 2 ^ 6 + 32; 2 ^ 64 - 1; 3])
  /\ load_sign_extend Release three 60 = Some (uval three)
  /\ bv_concat Debug one three = Ok (mkbv 140 [1; 2; 3 + 9 * 2 ^ 6])
  /\ load_concat one three = Some (1 + 2 ^ 65 + (3 + 9 * 2 ^ 6) * 2 ^ 128)
  /\ load_concat three none = None /\ load_concat none three = Some (uval three)
  /\ bv_to_i64 Debug (mkbv 70 [5]) = Ok None /\ bv_to_i64 Debug (mkbv 70 [5; 0; 0]) = Ok (Some 5%Z)
  /\ bv_to_i64 Release (mkbv 4 [5; 8]) = Ok (Some (-11)%Z)
  /\ bv_to_hex_str Release (mkbv 4 [0; 10]) = Ok (97 :: repeat 48 16)
  /\ panics (bv_to_hex_str Debug (mkbv 4 [0; 10]))
  /\ load_big_int Release (mkbv 4 [0; 10]) = Some (- 6 * 2 ^ 64)%Z
  /\ load_bit_str (mkbv 2 [1]) = Some [48; 49]
  /\ bv_to_bytes_le (mkbv 70 [258]) = [2; 1; 0; 0; 0; 0; 0; 0].
Proof.
  cbv zeta. repeat split; try (repeat constructor; fail).
  - exists (ser_bv (mkbv 70 [1; 2; 3])). reflexivity.
  - eexists. reflexivity.
  - eexists. reflexivity.
Qed.
