(** * Strings: model of /repo/src/bv/io/strings.rs

    A Rust [&str] / [String] is the list of its UTF-8 bytes (as [N]).  All
    literals involved are ASCII, and every function modelled here inspects the
    string byte-wise or through ASCII prefixes only, so nothing else about
    UTF-8 matters. *)

From Verif Require Import Base Arith.

(** ASCII codes used below: '0' = 48, '1' = 49, '+' = 43, '-' = 45,
    'a' = 97, 'A' = 65. *)
Definition c_0 : N := 48.
Definition c_1 : N := 49.
Definition c_plus : N := 43.
Definition c_minus : N := 45.

(** strings.rs:14-20 [IntErrorKind] (wrapped in [ParseIntError], 9-12) *)
Inductive int_error_kind := InvalidDigit | ExceedsWidth.

(** [0..n] as u32 values *)
Definition upto (n : N) : list N := map N.of_nat (seq 0 (N.to_nat n)).

(** strings.rs:47-52 and 56-61: the character pushed for bit [ii] of [word] *)
Definition bit_char (word ii : N) : N :=
  if N.land (wshr word ii) 1 =? 1 then c_1 else c_0.

(** strings.rs:40-65 [to_bit_str_internal].  Note the early return drops [out]. *)
Definition to_bit_str_internal (values : list N) (width : N) (out : list N)
  : res (list N) :=
  if width =? 0 then Ok []
  else
    let start_bit := (width - 1) mod 64 in
    let* msb := unwrap (last_opt values) in
    let out := out ++ map (bit_char msb) (rev (upto (start_bit + 1))) in
    Ok (fold_left (fun out word => out ++ map (bit_char word) (rev (upto 64)))
                  (skipn 1 (rev values)) out).

(** strings.rs:35-38 [to_bit_str] *)
Definition to_bit_str (values : list N) (width : N) : res (list N) :=
  to_bit_str_internal values width [].

(** strings.rs:22-33 [to_bit_str_signed] *)
Definition to_bit_str_signed (m : mode) (values : list N) (width : N) : res (list N) :=
  let* neg := ar_is_neg m values width in
  if neg then
    let* copy := ar_negate_in_place m values width in
    let* w1 := u32_sub m width 1 in
    to_bit_str_internal copy w1 [c_minus]
  else
    let* w1 := u32_sub m width 1 in
    to_bit_str values w1.

(** [char::from_digit(value, radix)]: None when value >= radix *)
Definition from_digit (value radix : N) : option N :=
  if value <? radix then Some (if value <? 10 then 48 + value else 87 + value) else None.

(** strings.rs:106-107 and 112-113: push hex digit [ii] of [word];
    BITS_PER_HEX_DIGIT = 4, WORD_HEX_MASK = 15 (strings.rs:67-70) *)
Definition hex_char (word ii : N) : res N :=
  unwrap (from_digit (N.land (wshr word (ii * 4)) 15) 16).

(** the loop [for ii in digits { out.push(hex digit ii of word) }] *)
Fixpoint push_hex (word : N) (digits : list N) (out : list N) : res (list N) :=
  match digits with
  | [] => Ok out
  | ii :: rest => let* c := hex_char word ii in push_hex word rest (out ++ [c])
  end.

(** strings.rs:110-115, the loop over the remaining words; WORD_HEX_DIGITS = 16 *)
Fixpoint push_hex_words (ws : list N) (out : list N) : res (list N) :=
  match ws with
  | [] => Ok out
  | w :: rest => let* out := push_hex w (rev (upto 16)) out in push_hex_words rest out
  end.

(** strings.rs:97-117 [to_hex_str_internal] *)
Definition to_hex_str_internal (m : mode) (values : list N) (width : N) (out : list N)
  : res (list N) :=
  let* _ := debug_assert m (div_ceil width 64 =? len values) in
  if width =? 0 then Ok []
  else
    let bits_in_msb := width mod 64 in
    let digits_in_msb := div_ceil bits_in_msb 4 in
    let* msb := unwrap (last_opt values) in
    let* out := push_hex msb (rev (upto digits_in_msb)) out in
    let skip_num := if 0 <? digits_in_msb then 1%nat else 0%nat in
    push_hex_words (skipn skip_num (rev values)) out.

(** strings.rs:92-95 [to_hex_str] *)
Definition to_hex_str (m : mode) (values : list N) (width : N) : res (list N) :=
  to_hex_str_internal m values width [].

(** strings.rs:85-90 [select_words_for_width] *)
Definition select_words_for_width (m : mode) (words : list N) (width : N) : res (list N) :=
  let words_needed := div_ceil width 64 in
  let* _ := debug_assert m (words_needed <=? len words) in
  range words 0 words_needed.

(** strings.rs:72-83 [to_hex_str_signed] *)
Definition to_hex_str_signed (m : mode) (values : list N) (width : N) : res (list N) :=
  let* neg := ar_is_neg m values width in
  if neg then
    let* copy := ar_negate_in_place m values width in
    let* w1 := u32_sub m width 1 in
    let* ws := select_words_for_width m copy w1 in
    to_hex_str_internal m ws w1 [c_minus]
  else
    let* w1 := u32_sub m width 1 in
    let* ws := select_words_for_width m values w1 in
    to_hex_str m ws w1.

(** strings.rs:124-135 [words_used]: loop over the reversed words *)
Fixpoint words_used_loop (l : N) (rev_words : list N) : N :=
  match rev_words with
  | [] => 0
  | w :: rest => if w =? 0 then words_used_loop (l - 1) rest else l
  end.
Definition words_used (words : list N) : N := words_used_loop (len words) (rev words).

(** strings.rs:137-142 [words_to_u128] *)
Definition words_to_u128 (m : mode) (words : list N) : res N :=
  let* _ := debug_assert m (2 <=? len words) in
  let* w1 := idx words 1 in
  let* w0 := idx words 0 in
  Ok (N.lor (N.shiftl w1 64) w0).

(** std: [Display] for u64 / u128, i.e. decimal digits without leading zeros.
    Forty digits are enough for a u128. *)
Fixpoint dec_digits (fuel : nat) (n : N) (acc : list N) : list N :=
  match fuel with
  | O => acc
  | S f =>
      let acc := (c_0 + n mod 10) :: acc in
      if n / 10 =? 0 then acc else dec_digits f (n / 10) acc
  end.
Definition display_dec (n : N) : list N := dec_digits 40 n [].

(** strings.rs:144-155 [to_dec_str_internal]; strings.rs:157-159
    [to_dec_str_wide] is [todo!()] *)
Definition to_dec_str_internal (m : mode) (values : list N) (out : list N) : res (list N) :=
  match words_used values with
  | 0 => Ok (out ++ [c_0])
  | 1 => let* v := idx values 0 in Ok (out ++ display_dec v)
  | 2 => let* v := words_to_u128 m values in Ok (out ++ display_dec v)
  | _ => Panic PTodo
  end.

(** strings.rs:119-122 [to_dec_str]; the capacity hint [width * 3 / 10]
    overflows for widths above 1431655765 *)
Definition to_dec_str (m : mode) (values : list N) (width : N) : res (list N) :=
  let* _ := u32_mul m width 3 in
  to_dec_str_internal m values [].

(** [value.starts_with('-')] *)
Definition starts_with_minus (value : list N) : bool :=
  match value with c :: _ => c =? c_minus | [] => false end.

(** strings.rs:167-172: number of digits, as a u32 *)
Definition num_digits (value : list N) : N :=
  match value with
  | [] => 0
  | [c] => if (c =? c_plus) || (c =? c_minus) then 0 else as_u32 (len value)
  | c :: digits =>
      if (c =? c_plus) || (c =? c_minus) then as_u32 (len digits) else as_u32 (len value)
  end.

(** strings.rs:161-180 [determine_width_from_str_radix] *)
Definition determine_width_from_str_radix (m : mode) (value : list N) (radix : N)
  : res N :=
  let* _ := debug_assert m ((radix =? 2) || (radix =? 16)) in
  let n := num_digits value in
  let* base_width :=
    (if radix =? 2 then Ok n
     else if radix =? 16 then u32_mul m n 4
     else Panic PTodo) in
  u32_add m base_width (if starts_with_minus value then 1 else 0).

(** strings.rs:182-195 [hex_digit_value]; [None] is [Err(InvalidDigit)] *)
Definition hex_digit_value (digit : N) : option N :=
  if (48 <=? digit) && (digit <=? 57) then Some (digit - 48)
  else if (97 <=? digit) && (digit <=? 102) then Some (digit - 97 + 10)
  else if (65 <=? digit) && (digit <=? 70) then Some (digit - 65 + 10)
  else None.

(** ** std: [u64::from_str_radix] / [u128::from_str_radix] (unsigned) *)

(** [(c as char).to_digit(radix)] *)
Definition to_digit (c radix : N) : option N :=
  let v :=
    if (48 <=? c) && (c <=? 57) then Some (c - 48)
    else if (97 <=? c) && (c <=? 122) then Some (c - 97 + 10)
    else if (65 <=? c) && (c <=? 90) then Some (c - 65 + 10)
    else None in
  match v with
  | Some d => if d <? radix then Some d else None
  | None => None
  end.

(** [core::num::IntErrorKind], as far as it is distinguished by the caller *)
Inductive std_parse := StdOk (v : N) | StdInvalidDigit | StdPosOverflow | StdEmpty.

(** digit loop with checked multiplication and addition; [lim] is the number of
    values of the integer type.  An invalid digit is reported before an
    overflow caused by the same character. *)
Fixpoint std_parse_loop (lim radix : N) (digits : list N) (result : N) : std_parse :=
  match digits with
  | [] => StdOk result
  | c :: rest =>
      match to_digit c radix with
      | None => StdInvalidDigit
      | Some x =>
          if result * radix <? lim then
            if result * radix + x <? lim
            then std_parse_loop lim radix rest (result * radix + x)
            else StdPosOverflow
          else StdPosOverflow
      end
  end.

(** std's [from_str_radix] for an unsigned type; panics for radix outside 2..=36 *)
Definition std_from_str_radix (lim radix : N) (src : list N) : res std_parse :=
  let* _ := assert ((2 <=? radix) && (radix <=? 36)) in
  Ok (match src with
      | [] => StdEmpty
      | [c] => if (c =? c_plus) || (c =? c_minus) then StdInvalidDigit
               else std_parse_loop lim radix src 0
      | c :: rest => if c =? c_plus then std_parse_loop lim radix rest 0
                     else std_parse_loop lim radix src 0
      end).

(** strings.rs:239-244 / 253-258: translation of the error kind *)
Definition std_error (p : std_parse) : int_error_kind :=
  match p with StdPosOverflow => ExceedsWidth | _ => InvalidDigit end.

(** ** The parsers for more than two words.  They return the (possibly partly
    overwritten) output words together with the error, if any. *)

(** strings.rs:363-371: the digit *)
Definition bin_digit_value (cc : N) : option N :=
  if cc =? c_1 then Some 1 else if cc =? c_0 then Some 0 else None.

(** strings.rs:355-376: loop and epilogue of [parse_base_2] *)
Fixpoint parse_base_2_loop (m : mode) (width : N) (digits : list N) (ii : N)
  (out : list N) (out_ii word : N) : res (list N * option int_error_kind) :=
  match digits with
  | [] =>
      let* _ := debug_assert m (out_ii =? 0) in
      let* out := set_idx out 0 word in
      Ok (out, None)
  | cc :: rest =>
      let* t := usz_sub m width ii in
      let* ii_rev := usz_sub m t 1 in
      let* (out_word, out_ii) :=
        (if (0 <? ii) && ((ii_rev + 1) mod 64 =? 0) then
           let* out := set_idx out out_ii word in
           let* out_ii := usz_sub m out_ii 1 in
           Ok ((out, 0), out_ii)
         else Ok ((out, word), out_ii)) in
      let (out, word) := out_word in
      match bin_digit_value cc with
      | None => Ok (out, Some InvalidDigit)
      | Some value =>
          parse_base_2_loop m width rest (ii + 1) out out_ii (N.lor (wshl word 1) value)
      end
  end.

(** strings.rs:338-377 [parse_base_2] *)
Definition parse_base_2 (m : mode) (digits : list N) (out : list N) (max_width : N)
  : res (list N * option int_error_kind) :=
  let width := as_u32 (len digits) in
  if max_width <? width then Ok (out, Some ExceedsWidth)
  else
    let words := div_ceil width 64 in
    let* out_ii := u32_sub m words 1 in
    parse_base_2_loop m width digits 0 out out_ii 0.

(** strings.rs:313-326: loop and epilogue of [parse_base_16] *)
Fixpoint parse_base_16_loop (m : mode) (num : N) (digits : list N) (ii : N)
  (out : list N) (out_ii word : N) : res (list N * option int_error_kind) :=
  match digits with
  | [] =>
      let* _ := debug_assert m (out_ii =? 0) in
      let* out := set_idx out 0 word in
      let* _ := u32_mul m (as_u32 num) 4 in
      Ok (out, None)
  | cc :: rest =>
      let* t := usz_sub m num ii in
      let* ii_rev := usz_sub m t 1 in
      let* (out_word, out_ii) :=
        (if (0 <? ii) && ((ii_rev + 1) mod 16 =? 0) then
           let* out := set_idx out out_ii word in
           let* out_ii := usz_sub m out_ii 1 in
           Ok ((out, 0), out_ii)
         else Ok ((out, word), out_ii)) in
      let (out, word) := out_word in
      match hex_digit_value cc with
      | None => Ok (out, Some InvalidDigit)
      | Some value =>
          parse_base_16_loop m num rest (ii + 1) out out_ii (N.lor (wshl word 4) value)
      end
  end.

(** strings.rs:307-327 [parse_base_16] *)
Definition parse_base_16 (m : mode) (digits : list N) (out : list N)
  : res (list N * option int_error_kind) :=
  let num := len digits in
  let* bits := u32_mul m (as_u32 num) 4 in
  let words := div_ceil bits 64 in
  let* out_ii := u32_sub m words 1 in
  parse_base_16_loop m num digits 0 out out_ii 0.

(** strings.rs:271-280: strip '+'; [None] is [Err(InvalidDigit)] *)
Definition strip_plus (digits : list N) : option (list N) :=
  match digits with
  | [c] => if c =? c_plus then None else Some digits
  | c :: rest => if c =? c_plus then Some rest else Some digits
  | [] => Some digits
  end.

(** strings.rs:232-289: the three parsers, selected by the number of words.
    [parse_base_10] (strings.rs:329-336) and unsupported bases are [todo!()]. *)
Definition parse_magnitude (m : mode) (value : list N) (radix : N) (out : list N)
  (width : N) : res (list N * option int_error_kind) :=
  match out with
  | [_] =>
      let* _ := debug_assert m (width <=? 64) in
      let* r := std_from_str_radix B64 radix value in
      match r with
      | StdOk v => Ok ([v], None)
      | e => Ok (out, Some (std_error e))
      end
  | [_; _] =>
      let* _ := debug_assert m (width <=? 128) in
      let* r := std_from_str_radix (B64 * B64) radix value in
      match r with
      | StdOk v => Ok ([as_u64 v; as_u64 (N.shiftr v 64)], None)
      | e => Ok (out, Some (std_error e))
      end
  | _ =>
      let* _ := debug_assert m (div_ceil width 64 =? len out) in
      match strip_plus value with
      | None => Ok (out, Some InvalidDigit)
      | Some digits =>
          if radix =? 2 then parse_base_2 m digits out width
          else if radix =? 10 then Panic PTodo
          else if radix =? 16 then parse_base_16 m digits out
          else Panic PTodo
      end
  end.

(** strings.rs:209-213: [value.strip_prefix('-')] *)
Definition strip_minus (value : list N) : bool * list N :=
  match value with
  | c :: rest => if c =? c_minus then (true, rest) else (false, value)
  | [] => (false, value)
  end.

(** strings.rs:197-305 [from_str_radix]: new output words and [Result<(), _>]
    ([None] is [Ok(())]) *)
Definition from_str_radix (m : mode) (value : list N) (radix : N) (out : list N)
  (width : N) : res (list N * option int_error_kind) :=
  match value with
  | [] => Ok (out, None)
  | _ =>
      let (is_negative, value) := strip_minus value in
      if width =? 0 then
        match value with
        | [c] => if c =? c_0 then Ok (out, None) else Ok (out, Some ExceedsWidth)
        | _ => Ok (out, Some ExceedsWidth)
        end
      else
        match value with
        | [] => Ok (out, Some InvalidDigit)
        | _ =>
            let* (out, e) := parse_magnitude m value radix out width in
            match e with
            | Some k => Ok (out, Some k)
            | None =>
                if is_negative then
                  let* out := ar_negate_in_place m out width in Ok (out, None)
                else Ok (out, None)
            end
        end
  end.
