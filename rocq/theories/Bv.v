(** * Bv: model of /repo/src/bv/ops.rs, /repo/src/bv/owned.rs and
    /repo/src/bv/borrowed.rs

    [BitVecValue], [BitVecValueRef] and [BitVecValueMutRef] all consist of a
    width and a slice of words and only differ in who owns the words; every
    operation is a provided method of [BitVecOps] / [BitVecMutOps] that goes
    through [width()] and [words()].  One record models all three. *)

From Coq Require Import QArith.
From Verif Require Import Base Arith Strings Bytes BigInt.
Open Scope N_scope.

(** owned.rs:16-19, borrowed.rs:12-15 and 47-50 *)
Record bv := mkbv { width : N; words : list N }.

(** owned.rs:116-119 [value_vec_zeros] *)
Definition value_vec_zeros (w : N) : list N := repeat 0 (N.to_nat (div_ceil w 64)).

(** [i64 as u64] and [u64 as i64] *)
Definition i64_as_u64 (z : Z) : N := Z.to_N (z mod 18446744073709551616)%Z.
Definition u64_as_i64 (x : N) : Z :=
  if x <? 9223372036854775808 then Z.of_N x else (Z.of_N x - 18446744073709551616)%Z.

(** ** BitVecOps *)

(** ops.rs:14-34 [declare_arith_bin_fn!] *)
Definition arith_bin_fn
  (f : mode -> list N -> list N -> list N -> N -> res (list N))
  (m : mode) (self rhs : bv) : res bv :=
  let* _ := debug_assert m (width self =? width rhs) in
  let* _ := debug_assert m (len (words self) =? len (words rhs)) in
  let out := value_vec_zeros (width self) in
  let* out :=
    (if len (words self) =? 1 then
       let* o := range out 0 1 in
       let* a := range (words self) 0 1 in
       let* b := range (words rhs) 0 1 in
       let* o := f m o a b (width self) in
       Ok (splice out 0 o)
     else f m out (words self) (words rhs) (width self)) in
  Ok (mkbv (width self) out).

(** ops.rs:36-57 [declare_bit_arith_bin_fn!] *)
Definition bit_arith_bin_fn
  (f : list N -> list N -> list N -> list N)
  (m : mode) (self rhs : bv) : res bv :=
  let* _ := debug_assert m (width self =? width rhs) in
  let* _ := debug_assert m (len (words self) =? len (words rhs)) in
  let out := value_vec_zeros (width self) in
  let* out :=
    (if len (words self) =? 1 then
       let* o := range out 0 1 in
       let* a := range (words self) 0 1 in
       let* b := range (words rhs) 0 1 in
       Ok (splice out 0 (f o a b))
     else Ok (f out (words self) (words rhs))) in
  Ok (mkbv (width self) out).

(** ops.rs:64-67 *)
Definition bv_to_bit_str (v : bv) : res (list N) := to_bit_str (words v) (width v).
(** ops.rs:69-72 *)
Definition bv_to_bit_str_signed (m : mode) (v : bv) : res (list N) :=
  to_bit_str_signed m (words v) (width v).
(** ops.rs:74-77 *)
Definition bv_to_hex_str (m : mode) (v : bv) : res (list N) := to_hex_str m (words v) (width v).
(** ops.rs:79-82 *)
Definition bv_to_dec_str (m : mode) (v : bv) : res (list N) := to_dec_str m (words v) (width v).
(** ops.rs:84-87 *)
Definition bv_to_hex_str_signed (m : mode) (v : bv) : res (list N) :=
  to_hex_str_signed m (words v) (width v).
(** ops.rs:89-91 *)
Definition bv_to_bytes_le (v : bv) : list N := to_bytes_le (words v) (width v).
(** ops.rs:93-96 *)
Definition bv_to_big_int (m : mode) (v : bv) : res Z := to_big_int m (words v) (width v).
(** ops.rs:98-101 *)
Definition bv_to_big_uint (v : bv) : res N := to_big_uint (words v).

(** ops.rs:127-134 [to_bool] *)
Definition bv_to_bool (v : bv) : res (option bool) :=
  if width v =? 1 then let* w := idx (words v) 0 in Ok (Some (ar_word_to_bool w))
  else Ok None.

(** ops.rs:136-146 [to_u64] *)
Definition bv_to_u64 (v : bv) : option N :=
  let non_zero_msb := existsb (fun w => negb (w =? 0)) (skipn 1 (words v)) in
  if non_zero_msb then None
  else Some (match words v with [] => 0 | w :: _ => w end).

(** ops.rs:148-180 [to_i64] *)
Definition bv_to_i64 (m : mode) (v : bv) : res (option Z) :=
  if width v <=? 64 then
    if width v =? 0 then Ok (Some 0%Z)
    else if width v =? 64 then
      let* w := idx (words v) 0 in Ok (Some (u64_as_i64 w))
    else
      let* _ := debug_assert m (len (words v) =? 1) in
      let* neg := ar_is_neg m (words v) (width v) in
      if neg then
        let* k := ar_mask (64 - width v) in
        let extra_sign_bits := wshl k (width v) in
        let* w := idx (words v) 0 in
        Ok (Some (u64_as_i64 (N.lor w extra_sign_bits)))
      else
        let* w := idx (words v) 0 in Ok (Some (u64_as_i64 w))
  else
    let all_zero_msbs := forallb (fun w => w =? 0) (skipn 1 (words v)) in
    let* word_0 := idx (words v) 0 in
    let all_max_msbs := forallb (fun w => w =? WMAX) (skipn 1 (words v)) in
    let* neg0 := ar_is_neg m [word_0] 64 in
    Ok (match all_zero_msbs, all_max_msbs, neg0 with
        | true, false, false => Some (u64_as_i64 word_0)
        | false, true, true => Some (u64_as_i64 word_0)
        | _, _, _ => None
        end).

(** ops.rs:182-184 [is_tru] ([&&] is short-circuiting) *)
Definition bv_is_tru (v : bv) : res bool :=
  if width v =? 1 then let* w := idx (words v) 0 in Ok (w =? 1) else Ok false.

(** ops.rs:186-188 [is_fals] *)
Definition bv_is_fals (v : bv) : res bool :=
  if width v =? 1 then let* w := idx (words v) 0 in Ok (w =? 0) else Ok false.

(** ops.rs:190-192 [is_zero] *)
Definition bv_is_zero (v : bv) : bool := forallb (fun w => w =? 0) (words v).

(** ops.rs:194-196 [is_negative] *)
Definition bv_is_negative (m : mode) (v : bv) : res bool := ar_is_neg m (words v) (width v).

(** ops.rs:198-206 *)
Definition bv_add := arith_bin_fn ar_add.
Definition bv_sub := arith_bin_fn ar_sub.
Definition bv_shift_left := arith_bin_fn ar_shift_left.
(** [shift_right] returns the amount, which the macro ignores *)
Definition bv_shift_right := arith_bin_fn (fun m dst a b w =>
  let* (dst, _) := ar_shift_right m dst a b w in Ok dst).
Definition bv_arithmetic_shift_right := arith_bin_fn ar_arithmetic_shift_right.
Definition bv_mul := arith_bin_fn ar_mul.
Definition bv_and := bit_arith_bin_fn ar_and.
Definition bv_or := bit_arith_bin_fn ar_or.
Definition bv_xor := bit_arith_bin_fn ar_xor.

(** ops.rs:208-223 [is_equal] *)
Definition bv_is_equal (m : mode) (self rhs : bv) : res bool :=
  let* _ := debug_assert m (width self =? width rhs) in
  let* _ := debug_assert m (len (words self) =? len (words rhs)) in
  if len (words self) =? 1 then Ok (ar_cmp_equal (words self) (words rhs))
  else Ok (ar_cmp_equal (words self) (words rhs)).

(** ops.rs:225-227 [is_not_equal] *)
Definition bv_is_not_equal (m : mode) (self rhs : bv) : res bool :=
  let* e := bv_is_equal m self rhs in Ok (negb e).

(** ops.rs:229-238 [is_greater] *)
Definition bv_is_greater (m : mode) (self rhs : bv) : res bool :=
  let* _ := debug_assert m (width self =? width rhs) in
  let* _ := debug_assert m (len (words self) =? len (words rhs)) in
  if len (words self) =? 1 then
    let* a := range (words self) 0 1 in
    let* b := range (words rhs) 0 1 in
    Ok (ar_cmp_greater a b)
  else Ok (ar_cmp_greater (words self) (words rhs)).

(** ops.rs:240-249 [is_greater_or_equal]: the branch for more than one word
    calls [cmp_greater], not [cmp_greater_equal] (ops.rs:247) *)
Definition bv_is_greater_or_equal (m : mode) (self rhs : bv) : res bool :=
  let* _ := debug_assert m (width self =? width rhs) in
  let* _ := debug_assert m (len (words self) =? len (words rhs)) in
  if len (words self) =? 1 then
    let* a := range (words self) 0 1 in
    let* b := range (words rhs) 0 1 in
    Ok (ar_cmp_greater_equal a b)
  else Ok (ar_cmp_greater (words self) (words rhs)).

(** ops.rs:251-254 [is_less] *)
Definition bv_is_less (m : mode) (self rhs : bv) : res bool := bv_is_greater m rhs self.

(** ops.rs:256-259 [is_less_or_equal] *)
Definition bv_is_less_or_equal (m : mode) (self rhs : bv) : res bool :=
  bv_is_greater_or_equal m rhs self.

(** ops.rs:261-274 [is_greater_signed] *)
Definition bv_is_greater_signed (m : mode) (self rhs : bv) : res bool :=
  let* _ := debug_assert m (width self =? width rhs) in
  let* _ := debug_assert m (len (words self) =? len (words rhs)) in
  if len (words self) =? 1 then
    let* a := range (words self) 0 1 in
    let* b := range (words rhs) 0 1 in
    ar_cmp_greater_signed m a b (width self)
  else ar_cmp_greater_signed m (words self) (words rhs) (width self).

(** ops.rs:276-289 [is_greater_or_equal_signed] *)
Definition bv_is_greater_or_equal_signed (m : mode) (self rhs : bv) : res bool :=
  let* _ := debug_assert m (width self =? width rhs) in
  let* _ := debug_assert m (len (words self) =? len (words rhs)) in
  if len (words self) =? 1 then
    let* a := range (words self) 0 1 in
    let* b := range (words rhs) 0 1 in
    ar_cmp_greater_equal_signed m a b (width self)
  else ar_cmp_greater_equal_signed m (words self) (words rhs) (width self).

(** ops.rs:291-294 [is_less_signed] *)
Definition bv_is_less_signed (m : mode) (self rhs : bv) : res bool :=
  bv_is_greater_signed m rhs self.

(** ops.rs:296-299 [is_less_or_equal_signed] *)
Definition bv_is_less_or_equal_signed (m : mode) (self rhs : bv) : res bool :=
  bv_is_greater_or_equal_signed m rhs self.

(** ops.rs:301-313 [slice]; the assertion reads [msb <= width] in the code *)
Definition bv_slice (m : mode) (self : bv) (msb lsb : N) : res bv :=
  let* _ := debug_assert m (msb <=? width self) in
  let* _ := debug_assert m (lsb <=? msb) in
  let* d := u32_sub m msb lsb in
  let* out_width := u32_add m d 1 in
  let out := value_vec_zeros out_width in
  let* out :=
    (if out_width <=? 64 then
       let* o := range out 0 1 in
       let* o := ar_slice m o (words self) msb lsb in
       Ok (splice out 0 o)
     else ar_slice m out (words self) msb lsb) in
  Ok (mkbv out_width out).

(** ops.rs:315-317 [is_bit_set] *)
Definition bv_is_bit_set (self : bv) (pos : N) : res bool := ar_is_bit_set (words self) pos.

(** ops.rs:319-334 [sign_extend] *)
Definition bv_sign_extend (m : mode) (self : bv) (by_ : N) : res bv :=
  let* out_width := u32_add m (width self) by_ in
  let out := value_vec_zeros out_width in
  let* out :=
    (if out_width <=? 64 then
       let* o := range out 0 1 in
       let* s := range (words self) 0 1 in
       let* o := ar_sign_extend m o s (width self) out_width in
       Ok (splice out 0 o)
     else ar_sign_extend m out (words self) (width self) out_width) in
  Ok (mkbv out_width out).

(** ops.rs:336-346 [zero_extend] *)
Definition bv_zero_extend (m : mode) (self : bv) (by_ : N) : res bv :=
  let* out_width := u32_add m (width self) by_ in
  let out := value_vec_zeros out_width in
  let* out :=
    (if out_width <=? 64 then
       let* o := range out 0 1 in
       let* s := range (words self) 0 1 in
       let* o := ar_zero_extend o s in
       Ok (splice out 0 o)
     else ar_zero_extend out (words self)) in
  Ok (mkbv out_width out).

(** ops.rs:348-357 [not] *)
Definition bv_not (m : mode) (self : bv) : res bv :=
  let out := value_vec_zeros (width self) in
  let* out :=
    (if len (words self) <=? 1 then
       let* o := range out 0 1 in
       let* s := range (words self) 0 1 in
       let* o := ar_not m o s (width self) in
       Ok (splice out 0 o)
     else ar_not m out (words self) (width self)) in
  Ok (mkbv (width self) out).

(** ops.rs:359-368 [negate] *)
Definition bv_negate (m : mode) (self : bv) : res bv :=
  let out := value_vec_zeros (width self) in
  let* out :=
    (if len (words self) <=? 1 then
       let* o := range out 0 1 in
       let* s := range (words self) 0 1 in
       let* o := ar_negate m o s (width self) in
       Ok (splice out 0 o)
     else ar_negate m out (words self) (width self)) in
  Ok (mkbv (width self) out).

(** ops.rs:370-385 [concat] *)
Definition bv_concat (m : mode) (self rhs : bv) : res bv :=
  let* out_width := u32_add m (width self) (width rhs) in
  let out := value_vec_zeros out_width in
  let* out :=
    (if out_width <=? 64 then
       let* o := range out 0 1 in
       let* a := range (words self) 0 1 in
       let* b := range (words rhs) 0 1 in
       let* o := ar_concat m o a b (width rhs) in
       Ok (splice out 0 o)
     else ar_concat m out (words self) (words rhs) (width rhs)) in
  Ok (mkbv out_width out).

(** ** Fixed point (feature fraction1).  [fraction::Fraction] is rendered as
    the rational it denotes. *)

(** ops.rs:120-125 [to_unsigned_fixed_point] *)
Definition bv_to_unsigned_fixed_point (m : mode) (v : bv) (fraction_width : N)
  : res (option Q) :=
  let* _ := debug_assert m (fraction_width <=? width v) in
  let* denom := u64_shl1 m fraction_width in
  Ok (match bv_to_u64 v with
      | Some x => Some (inject_Z (Z.of_N x) / inject_Z (Z.of_N denom))%Q
      | None => None
      end).

(** ops.rs:103-118 [to_signed_fixed_point] *)
Definition bv_to_signed_fixed_point (m : mode) (v : bv) (fraction_width : N)
  : res (option Q) :=
  let* _ := debug_assert m (fraction_width <=? width v) in
  let* neg := bv_is_negative m v in
  if neg then
    if 64 <? width v then Ok None
    else
      let* negated := bv_negate m v in
      let* frac := bv_to_unsigned_fixed_point m negated fraction_width in
      Ok (match frac with Some f => Some (- f)%Q | None => None end)
  else bv_to_unsigned_fixed_point m v fraction_width.

(** ** BitVecMutOps: each method returns the new value *)

(** ops.rs:392-397 [assign]; [copy_from_slice] panics unless lengths agree *)
Definition bv_assign (m : mode) (self value : bv) : res bv :=
  let* _ := debug_assert m (width self =? width value) in
  let* _ := debug_assert m (len (words self) =? len (words value)) in
  let* _ := assert (len (words self) =? len (words value)) in
  Ok (mkbv (width self) (words value)).

(** ops.rs:399-403 [mask_msb] *)
Definition bv_mask_msb (m : mode) (self : bv) : res bv :=
  let* ws := ar_mask_msb m (words self) (width self) in Ok (mkbv (width self) ws).

(** ops.rs:405-410 [clear] *)
Definition bv_clear (self : bv) : bv := mkbv (width self) (map (fun _ => 0) (words self)).

(** ops.rs:412-419 [assign_ones] *)
Definition bv_assign_ones (m : mode) (self : bv) : res bv :=
  bv_mask_msb m (mkbv (width self) (map (fun _ => WMAX) (words self))).

(** ops.rs:421-435 [assign_from_u64] *)
Definition bv_assign_from_u64 (m : mode) (self : bv) (value : N) : res bv :=
  let self := bv_clear self in
  let* ws := set_idx (words self) 0 value in
  let* self := bv_mask_msb m (mkbv (width self) ws) in
  let* w0 :=
    match m with Debug => idx (words self) 0 | Release => Ok value end in
  let* _ := debug_assert m (w0 =? value) in
  Ok self.

(** ops.rs:437-479 [assign_from_i64]; lines 450-478 only exist in debug builds *)
Definition bv_assign_from_i64 (m : mode) (self : bv) (value : Z) : res bv :=
  let w := width self in
  let self := bv_clear self in
  let* ws :=
    (if len (words self) =? 1 then
       let* k := ar_mask w in
       set_idx (words self) 0 (N.land (i64_as_u64 value) k)
     else ar_sign_extend m (words self) [i64_as_u64 value] 64 w) in
  let self := mkbv w ws in
  match m with
  | Release => Ok self
  | Debug =>
      let* neg := bv_is_negative m self in
      let* w0 := idx (words self) 0 in
      let* _ :=
        (if neg then
           if w <? 64 then
             let* k := ar_mask (64 - w) in
             let extra_sign_bits := wshl k w in
             debug_assert m (N.lor w0 extra_sign_bits =? i64_as_u64 value)
           else debug_assert m (w0 =? i64_as_u64 value)
         else debug_assert m (w0 =? i64_as_u64 value)) in
      Ok self
  end.

(** ops.rs:481-484 [assign_from_str_radix]: new value and [Result<(), _>] *)
Definition bv_assign_from_str_radix (m : mode) (self : bv) (value : list N) (radix : N)
  : res (bv * option int_error_kind) :=
  let* (ws, e) := from_str_radix m value radix (words self) (width self) in
  Ok (mkbv (width self) ws, e).

(** ops.rs:486-488 [set_bit] *)
Definition bv_set_bit (self : bv) (pos : N) : res bv :=
  let* ws := ar_set_bit (words self) pos in Ok (mkbv (width self) ws).

(** ops.rs:490-492 [clear_bit] *)
Definition bv_clear_bit (self : bv) (pos : N) : res bv :=
  let* ws := ar_clear_bit (words self) pos in Ok (mkbv (width self) ws).

(** ** Constructors (owned.rs) *)

(** owned.rs:66-69 [zero] *)
Definition bv_zero (w : N) : bv := mkbv w (value_vec_zeros w).

(** owned.rs:71-75 [ones] *)
Definition bv_ones (m : mode) (w : N) : res bv := bv_assign_ones m (bv_zero w).

(** owned.rs:40-44 [from_u64] *)
Definition bv_from_u64 (m : mode) (value w : N) : res bv :=
  bv_assign_from_u64 m (bv_zero w) value.

(** owned.rs:46-50 [from_i64] *)
Definition bv_from_i64 (m : mode) (value : Z) (w : N) : res bv :=
  bv_assign_from_i64 m (bv_zero w) value.

(** owned.rs:77-82 [tru], [fals] *)
Definition bv_tru (m : mode) : res bv := bv_from_u64 m 1 1.
Definition bv_fals (m : mode) : res bv := bv_from_u64 m 0 1.

(** owned.rs:52-58 [from_bool], owned.rs:104-108 [From<bool>] *)
Definition bv_from_bool (m : mode) (value : bool) : res bv :=
  if value then bv_tru m else bv_fals m.

(** [Result<BitVecValue, ParseIntError>] *)
Inductive parsed := Parsed (v : bv) | ParseErr (e : int_error_kind).

(** owned.rs:34-38 [from_str_radix] *)
Definition bv_from_str_radix (m : mode) (value : list N) (radix w : N) : res parsed :=
  let* (v, e) := bv_assign_from_str_radix m (bv_zero w) value radix in
  Ok (match e with None => Parsed v | Some k => ParseErr k end).

(** owned.rs:22-26 [from_bit_str] *)
Definition bv_from_bit_str (m : mode) (value : list N) : res parsed :=
  let* w := determine_width_from_str_radix m value 2 in
  bv_from_str_radix m value 2 w.

(** owned.rs:28-32 [from_hex_str] *)
Definition bv_from_hex_str (m : mode) (value : list N) : res parsed :=
  let* w := determine_width_from_str_radix m value 16 in
  bv_from_str_radix m value 16 w.

(** owned.rs:60-64 [from_bytes_le] *)
Definition bv_from_bytes_le (m : mode) (bytes : list N) (bits : N) : res bv :=
  let* ws := from_bytes_le m bytes bits (value_vec_zeros bits) in Ok (mkbv bits ws).

(** owned.rs:84-89 [from_big_int] *)
Definition bv_from_big_int (m : mode) (value : Z) (bits : N) : res bv :=
  let* ws := from_big_int m value bits (value_vec_zeros bits) in Ok (mkbv bits ws).

(** owned.rs:91-96 [from_big_uint] *)
Definition bv_from_big_uint (m : mode) (value bits : N) : res bv :=
  let* ws := from_big_uint m value bits (value_vec_zeros bits) in Ok (mkbv bits ws).

(** owned.rs:152-158 [From<&BigInt>] *)
Definition bv_of_big_int (m : mode) (value : Z) : res bv :=
  let* bits := count_big_int_bits m value in bv_from_big_int m value bits.

(** owned.rs:160-166 [From<&BigUint>] *)
Definition bv_of_big_uint (m : mode) (value : N) : res bv :=
  let* bits := count_big_uint_bits m value in bv_from_big_uint m value bits.

(** owned.rs:110-114 [From<BitVecValueRef>], borrowed.rs:23-27
    [From<&BitVecValue> for BitVecValueRef], borrowed.rs:58-62 for the mutable
    reference: width and words are copied / borrowed unchanged *)
Definition bv_owned_of_ref (v : bv) : bv := mkbv (width v) (words v).
Definition bv_ref_of_owned (v : bv) : bv := mkbv (width v) (words v).

(** [==] on word slices: same length and equal elements *)
Fixpoint words_eqb (a b : list N) : bool :=
  match a, b with
  | [], [] => true
  | x :: a', y :: b' => (x =? y) && words_eqb a' b'
  | _, _ => false
  end.

(** owned.rs:121-126 [PartialEq<V> for BitVecValue] *)
Definition bv_eq (m : mode) (self other : bv) : res bool :=
  let* _ := debug_assert m (negb (width other =? width self)
                            || (len (words other) =? len (words self))) in
  Ok ((width other =? width self) && words_eqb (words other) (words self)).

(** borrowed.rs:35-43 [PartialEq<O> for BitVecValueRef] *)
Definition bvref_eq (m : mode) (self other : bv) : res bool :=
  if width other =? width self then bv_is_equal m self other else Ok false.

(** owned.rs:130-144: the operators [+] and [-] *)
Definition bv_op_add := bv_add.
Definition bv_op_sub := bv_sub.

(** owned.rs:14: derived [Ord] on (width, words); SmallVec compares like its
    slice, i.e. lexicographically from the first (least significant) word *)
Fixpoint words_cmp (a b : list N) : comparison :=
  match a, b with
  | [], [] => Eq
  | [], _ :: _ => Lt
  | _ :: _, [] => Gt
  | x :: a', y :: b' =>
      match x ?= y with Eq => words_cmp a' b' | c => c end
  end.
Definition bv_cmp (a b : bv) : comparison :=
  match width a ?= width b with Eq => words_cmp (words a) (words b) | c => c end.

(** What a derived [Hash] feeds into the [Hasher] (owned.rs:14, borrowed.rs:11):
    the width (write_u32), then the slice: its length prefix and its words.
    SmallVec hashes like its slice. *)
Inductive hash_write := HashU32 (n : N) | HashLen (n : N) | HashU64 (n : N).
Definition words_hash (l : list N) : list hash_write := HashLen (len l) :: map HashU64 l.
Definition bv_hash (v : bv) : list hash_write := HashU32 (width v) :: words_hash (words v).
Definition bvref_hash (v : bv) : list hash_write := HashU32 (width v) :: words_hash (words v).
