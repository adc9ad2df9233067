(** * BigInt: model of /repo/src/bv/io/bigint.rs

    [num_bigint::BigUint] is [N], [num_bigint::BigInt] is [Z].  The few
    num-bigint functions used are rendered by what they compute:
    [iter_u64_digits] (base 2^64 digits, least significant first, no leading
    zero digits, nothing for 0), [from_slice] (base 2^32 digits, least
    significant first) and [sign]. *)

From Verif Require Import Base Arith.

(** num-bigint: [BigUint::iter_u64_digits] *)
Fixpoint u64_digits_fuel (fuel : nat) (n : N) : list N :=
  match fuel with
  | O => []
  | S f => if n =? 0 then [] else n mod B64 :: u64_digits_fuel f (n / B64)
  end.
Definition u64_digits (n : N) : list N := u64_digits_fuel (N.to_nat (N.size n)) n.

(** num-bigint: [BigUint::from_slice] *)
Fixpoint from_u32_slice (l : list N) : N :=
  match l with [] => 0 | x :: t => x + B32 * from_u32_slice t end.

(** num-bigint: [BigInt::from_slice(sign, slice)] *)
Definition big_int_from_slice (minus : bool) (l : list N) : Z :=
  if minus then (- Z.of_N (from_u32_slice l))%Z else Z.of_N (from_u32_slice l).

(** bigint.rs:14-25 [words_to_u32] *)
Fixpoint words_to_u32 (words : list N) : res (list N) :=
  match words with
  | [] => Ok []
  | w :: rest =>
      let* mask32 := ar_mask 32 in
      let lsb := as_u32 (N.land w mask32) in
      let msb := as_u32 (N.land (wshr w 32) mask32) in
      let* t := words_to_u32 rest in
      Ok (lsb :: msb :: t)
  end.

(** bigint.rs:9-12 [to_big_uint] *)
Definition to_big_uint (words : list N) : res N :=
  let* words32 := words_to_u32 words in Ok (from_u32_slice words32).

(** bigint.rs:31-39 [get_sign]: true for [Sign::Minus] *)
Definition get_sign (m : mode) (value : list N) (width : N) : res bool :=
  let* w1 := u32_sub m width 1 in
  let sign_bit := w1 mod 64 in
  let* l := unwrap (last_opt value) in
  Ok (N.land (wshr l sign_bit) 1 =? 1).

(** bigint.rs:41-57 [to_big_int] *)
Definition to_big_int (m : mode) (words : list N) (width : N) : res Z :=
  if width =? 0 then Ok 0%Z
  else
    let* sign := get_sign m words width in
    let* words64 :=
      (if sign then ar_negate m (repeat 0 (length words)) words width else Ok words) in
    let* words32 := words_to_u32 words64 in
    Ok (big_int_from_slice sign words32).

(** bigint.rs:76-79: the copy loop of [iter_to_word]; returns the new words and
    the number of words written *)
Fixpoint copy_digits (out iter : list N) : list N * N :=
  match out, iter with
  | _ :: o', s :: i' => let (l, n) := copy_digits o' i' in (s :: l, n + 1)
  | _, _ => (out, 0)
  end.

(** bigint.rs:68-92 [iter_to_word] *)
Definition iter_to_word (m : mode) (iter : list N) (width : N) (out : list N)
  : res (list N) :=
  if width =? 0 then Ok out
  else
    let num_words := div_ceil width 64 in
    let* _ := debug_assert m (num_words <=? len out) in
    let (out, word_count) := copy_digits out iter in
    match num_words ?= word_count with
    | Lt => Panic PUnreachable
    | Eq => ar_mask_msb m out width
    | Gt => Ok (firstn (N.to_nat word_count) out
                  ++ map (fun _ => 0) (skipn (N.to_nat word_count) out))
    end.

(** bigint.rs:27-29 [from_big_uint] *)
Definition from_big_uint (m : mode) (value : N) (width : N) (out : list N) : res (list N) :=
  iter_to_word m (u64_digits value) width out.

(** bigint.rs:59-66 [from_big_int]; [iter_u64_digits] of a BigInt yields the
    digits of its magnitude *)
Definition from_big_int (m : mode) (value : Z) (width : N) (out : list N) : res (list N) :=
  let* out := iter_to_word m (u64_digits (Z.abs_N value)) width out in
  if (value <? 0)%Z then ar_negate m out out width else Ok out.

(** u64::leading_zeros *)
Definition leading_zeros64 (x : N) : N := 64 - N.size x.

(** bigint.rs:94-102 [count_big_uint_bits] *)
Definition count_big_uint_bits (m : mode) (value : N) : res N :=
  let digits := u64_digits value in
  let words := as_u32 (len digits) in
  if words =? 0 then Ok 0
  else
    let* msb := unwrap (last_opt digits) in
    let* t := u32_mul m words 64 in
    u32_sub m t (leading_zeros64 msb).

(** bigint.rs:104-113 [count_big_int_bits] *)
Definition count_big_int_bits (m : mode) (value : Z) : res N :=
  let digits := u64_digits (Z.abs_N value) in
  let words := as_u32 (len digits) in
  if words =? 0 then Ok 1
  else
    let* msb := unwrap (last_opt digits) in
    let* t := u32_mul m words 64 in
    let* t := u32_sub m t (leading_zeros64 msb) in
    u32_add m t 1.
