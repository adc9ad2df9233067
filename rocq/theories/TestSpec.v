(** * TestSpec: the property tests of the project, written out.

    Each definition is the body of one test of the project (the helper that the
    [proptest!] blocks call), with the place it was copied from.  A test answers
    [Ok true] when all its assertions hold, [Ok false] when an assertion fails, and
    panics when a call it makes panics.  The random inputs are the arguments: C79 is
    about all of them. *)

From Verif Require Import Base Arith Strings Bytes BigInt Bv Indexed Spec TextSpec ViewSpec.

(** ** Helpers *)

(** [Result::unwrap] of a parse *)
Definition parsed_words (r : res (list N * option int_error_kind)) : res (list N) :=
  let* (out, e) := r in match e with None => Ok out | Some _ => Panic PUnwrap end.
Definition parsed_bv (r : res parsed) : res bv :=
  let* p := r in match p with Parsed v => Ok v | ParseErr _ => Panic PUnwrap end.

(** [assert_eq!] of two texts, byte or word buffers *)
Definition same (a b : list N) : bool := words_eqb a b.

(** [str::starts_with] *)
Definition starts (c : N) (s : list N) : bool := match s with x :: _ => x =? c | [] => false end.

(** arithmetic.rs:419-428 [assert_unused_bits_zero]; [last().unwrap()] of an empty
    buffer is taken for a failed assertion *)
Definition unused_zero (l : list N) (w : N) : bool :=
  (w mod 64 =? 0)
  || (negb (len l =? 0) && (N.shiftr (last l 0) (w mod 64) =? 0)).

(** arithmetic.rs:437-442 [from_bit_str] *)
Definition from_bits (m : mode) (s : list N) : res (list N * N) :=
  let* w := determine_width_from_str_radix m s 2 in
  let* out := parsed_words (from_str_radix m s 2 (value_vec_zeros w) w) in
  Ok (out, w).

(** ** src/bv/arithmetic.rs, tests on texts of '0' and '1' *)

(** arithmetic.rs:448-453 *)
Definition do_test_is_neg (m : mode) (a : list N) : res bool :=
  let* (v, w) := from_bits m a in
  let* r := ar_is_neg m v w in
  Ok (Bool.eqb r (starts 49 a)).

(** arithmetic.rs:461-471 *)
Definition do_test_concat (m : mode) (a b : list N) : res bool :=
  let* (av, aw) := from_bits m a in
  let* (bv, bw) := from_bits m b in
  let* (cv, cw) := from_bits m (copies (len a + len b) 49) in
  let* cv := ar_concat m cv av bv bw in
  let* s := to_bit_str cv cw in
  Ok ((cw =? aw + bw) && unused_zero cv cw && same s (a ++ b)).

(** arithmetic.rs:473-492 *)
Definition do_test_slice (m : mode) (src : list N) (hi lo : N) : res bool :=
  let* (v, w) := from_bits m src in
  let rw := hi - lo + 1 in
  let* r := ar_slice m (value_vec_zeros rw) v hi lo in
  let* s := to_bit_str r rw in
  Ok (negb (len src =? 0) && (lo <=? hi) && (hi <? w)
      && unused_zero r rw && same s (first rw (rest (w - 1 - hi) src))).

(** arithmetic.rs:504-517 [width_int_to_bit_str] *)
Definition width_int_to_bit_str (value w : N) : res (list N) :=
  let* _ := (if w <? 32 then
               let* k := ar_mask w in
               if N.land value k =? value then Ok tt else Panic PAssert
             else Ok tt) in
  let* l := set_idx (value_vec_zeros w) 0 value in
  to_bit_str l w.

(** arithmetic.rs:519-552 [do_test_shift] with the three calls of it at 554-563 *)
Definition do_test_shift (m : mode) (src : list N) (by_ : N) (right sgn : bool) : res bool :=
  let* (a, w) := from_bits m src in
  let* bs := width_int_to_bit_str by_ w in
  let* (b, bw) := from_bits m bs in
  let zero := repeat 0 (length a) in
  let* r := (if right then
               if sgn then ar_arithmetic_shift_right m zero a b w
               else let* (r, _) := ar_shift_right m zero a b w in Ok r
             else ar_shift_left m zero a b w) in
  let* s := to_bit_str r w in
  let pad := copies (N.min by_ w) (if sgn then hd 48 src else 48) in
  let expected := if right then pad ++ first (w - N.min by_ w) src
                  else rest (N.min by_ w) src ++ pad in
  Ok ((w =? bw) && unused_zero r w && same s expected).
Definition do_test_shift_right m src by_ := do_test_shift m src by_ true false.
Definition do_test_shift_left m src by_ := do_test_shift m src by_ false false.
Definition do_test_arithmetic_shift_right m src by_ := do_test_shift m src by_ true true.

(** arithmetic.rs:593-602 *)
Definition do_test_zero_ext (m : mode) (src : list N) (by_ : N) : res bool :=
  let* (v, w) := from_bits m src in
  let* rw := u32_add m w by_ in
  let* r := ar_zero_extend (value_vec_zeros rw) v in
  let* s := to_bit_str r rw in
  Ok (unused_zero r rw && same s (copies by_ 48 ++ src)).

(** arithmetic.rs:604-615 *)
Definition do_test_sign_ext (m : mode) (src : list N) (by_ : N) : res bool :=
  let* (v, w) := from_bits m src in
  let* rw := u32_add m w by_ in
  let* r := ar_sign_extend m (value_vec_zeros rw) v w rw in
  let* s := to_bit_str r rw in
  Ok (negb (len src =? 0) && unused_zero r rw && same s (copies by_ (hd 48 src) ++ src)).

(** ** src/bv/arithmetic.rs, tests on pairs of big integers *)

(** arithmetic.rs:655-676 [from_big_int] and [from_big_uint], with their assertions *)
Definition big_words (m : mode) (z : Z) (w : N) : res (list N) :=
  if N.size (Z.abs_N z) <? w then from_big_int m z w (value_vec_zeros w) else Panic PAssert.
Definition ubig_words (m : mode) (n : N) (w : N) : res (list N) :=
  if N.size n <=? w then from_big_uint m n w (value_vec_zeros w) else Panic PAssert.

(** arithmetic.rs:678-698 *)
Definition do_test_arith (our : mode -> list N -> list N -> list N -> N -> res (list N))
  (big : Z -> Z -> Z) (m : mode) (a b : Z) (w : N) : res bool :=
  let* av := big_words m a w in
  let* bv := big_words m b w in
  let* r := our m (value_vec_zeros w) av bv w in
  let expected_num := Z.land (big a b) (2 ^ Z.of_N w - 1) in
  let* expected := ubig_words m (Z.abs_N expected_num) w in
  Ok (unused_zero r w && same expected r).
Definition do_test_add := do_test_arith ar_add Z.add.
Definition do_test_sub := do_test_arith ar_sub Z.sub.
Definition do_test_mul := do_test_arith ar_mul Z.mul.

(** arithmetic.rs:726-738 *)
Definition do_test_cmp_signed (our : mode -> list N -> list N -> N -> res bool)
  (big : Z -> Z -> bool) (m : mode) (a b : Z) (w : N) : res bool :=
  let* av := big_words m a w in
  let* bv := big_words m b w in
  let* r := our m av bv w in
  Ok (Bool.eqb (big a b) r).

(** arithmetic.rs:740-754 *)
Definition do_test_cmp_unsigned (our : list N -> list N -> bool)
  (big : N -> N -> bool) (m : mode) (a b : Z) (w : N) : res bool :=
  let* av := ubig_words m (Z.abs_N a) w in
  let* bv := ubig_words m (Z.abs_N b) w in
  Ok (Bool.eqb (big (Z.abs_N a) (Z.abs_N b)) (our av bv)).

(** arithmetic.rs:756-785 *)
Definition do_test_cmp_greater :=
  do_test_cmp_unsigned ar_cmp_greater (fun a b => b <? a).
Definition do_test_cmp_greater_signed :=
  do_test_cmp_signed ar_cmp_greater_signed (fun a b => (b <? a)%Z).
Definition do_test_cmp_greater_equal :=
  do_test_cmp_unsigned ar_cmp_greater_equal (fun a b => b <=? a).
Definition do_test_cmp_greater_equal_signed :=
  do_test_cmp_signed ar_cmp_greater_equal_signed (fun a b => (b <=? a)%Z).
Definition do_test_cmp_equal :=
  do_test_cmp_unsigned ar_cmp_equal N.eqb.
Definition do_test_cmp_equal_signed :=
  do_test_cmp_signed (fun _ a b _ => Ok (ar_cmp_equal a b)) Z.eqb.

(** ** src/bv/io/bigint.rs *)

(** bigint.rs:120-138 *)
Definition do_test_from_to_big_int (m : mode) (z : Z) : res bool :=
  let* bits := count_big_int_bits m z in
  let* out := from_big_int m z bits (repeat 0 (N.to_nat (div_ceil bits 64))) in
  let* z' := to_big_int m out bits in
  Ok (unused_zero out bits && (z =? z')%Z).
Definition do_test_from_to_big_uint (m : mode) (n : N) : res bool :=
  let* bits := count_big_uint_bits m n in
  let* out := from_big_uint m n bits (repeat 0 (N.to_nat (div_ceil bits 64))) in
  let* n' := to_big_uint out in
  Ok (unused_zero out bits && (n =? n')).

(** ** src/bv/io/bytes.rs *)

(** bytes.rs:58-72; the length is cast to a width, [8 - leading_zeros] is the bit
    length of the last byte *)
Definition do_test_from_to_bytes_le (m : mode) (b : list N) : res bool :=
  let w := as_u32 (match b with [] => 0 | _ => (len b - 1) * 8 + N.max (N.size (last b 0)) 1 end) in
  let* out := from_bytes_le m b w (repeat 0 (N.to_nat (div_ceil w 64))) in
  Ok (unused_zero out w && same (to_bytes_le out w) b).

(** ** src/bv/io/strings.rs *)

(** what the round trip should print, up to the sign: strings.rs:408-418, 457-467 *)
Definition expected (s : list N) : list N :=
  match s with
  | c :: t => if c =? 43 then t
              else if (c =? 45) && forallb (fun c => c =? 48) t then t else s
  | [] => []
  end.

(** strings.rs:390-425 *)
Definition do_test_from_to_bit_str (m : mode) (s : list N) : res bool :=
  let* w := determine_width_from_str_radix m s 2 in
  let* out := parsed_words (from_str_radix m s 2 (repeat 0 (N.to_nat (div_ceil (len s) 64))) w) in
  let* o := (if starts 45 s then to_bit_str_signed m out w else to_bit_str out w) in
  Ok ((w =? if starts 43 s then len s - 1 else len s) && unused_zero out w && same o (expected s)).

(** strings.rs:436-469 *)
Definition do_test_from_to_hex_str (m : mode) (s : list N) : res bool :=
  let* w := determine_width_from_str_radix m s 16 in
  let* out := parsed_words (from_str_radix m s 16 (repeat 0 (N.to_nat (div_ceil w 64))) w) in
  let* o := (if starts 45 s then to_hex_str_signed m out w else to_hex_str m out w) in
  Ok ((w =? if starts 43 s then (len s - 1) * 4
            else if starts 45 s then (len s - 1) * 4 + 1 else len s * 4)
      && unused_zero out w && same o (map lower (expected s))).

(** strings.rs:508-513 *)
Definition do_test_to_from_decimal_str (m : mode) (s : list N) : res bool :=
  let* v := parsed_bv (bv_from_bit_str m s) in
  let* d := bv_to_dec_str m v in
  let* v' := parsed_bv (bv_from_str_radix m d 10 (width v)) in
  bv_eq m v v'.

(** ** src/bv/borrowed.rs and src/bv/indexed.rs *)

(** borrowed.rs:119-125 [check_hash]: a value equals a reference to it and writes the
    same to the hasher *)
Fixpoint same_writes (a b : list hash_write) : bool :=
  match a, b with
  | [], [] => true
  | HashU32 x :: a', HashU32 y :: b' | HashLen x :: a', HashLen y :: b' | HashU64 x :: a', HashU64 y :: b' =>
      (x =? y) && same_writes a' b'
  | _, _ => false
  end.
Definition check_hash (m : mode) (v : bv) : res bool :=
  let r := bv_ref_of_owned v in
  let* e := bv_eq m v r in
  Ok (e && same_writes (bv_hash v) (bvref_hash r)).
Definition do_test_hash (m : mode) (s : list N) : res bool :=
  let* v := parsed_bv (bv_from_bit_str m s) in check_hash m v.

(** indexed.rs:357-366 *)
Definition interner_should_return_same_value (m : mode) (z : Z) (w : N) : res bool :=
  let* v := bv_from_big_int m z w in
  let* (st, i0) := interner_get_index m interner_new v in
  let* (st, i1) := interner_get_index m st v in
  let* v0 := get_ref (interner_words st) i0 in
  let* e := bv_eq m v v0 in
  Ok ((i_index i0 =? i_index i1) && (i_width i0 =? i_width i1) && e).

(** ** When a test passes *)
Definition passes (t : mode -> res bool) : Prop := forall m, t m = Ok true.

(** the shift amount fits the width of the text and the type [u32] (arithmetic.rs:501-512) *)
Definition amount (s : list N) (k : N) : Prop := k < 2 ^ 32 /\ k < 2 ^ len s.
(** the number of unused bits of the last word *)
Definition unused (w : N) : N := 64 * ((w + 63) / 64) - w.
(** [value.bits() < width], what the generators of big integers guarantee (arithmetic.rs:650-656) *)
Definition small (w : N) (z : Z) : Prop := (Z.abs z < 2 ^ (Z.of_N w - 1))%Z.
(** [[-+]?] *)
Definition sign (sg : list N) : Prop := sg = [] \/ sg = [43] \/ sg = [45].
