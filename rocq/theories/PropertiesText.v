(** * PropertiesText: C21 - C27 (text in and out).

    Vocabulary in Spec.v and TextSpec.v: [number radix s] is the positional value
    of a digit string, [signed_text radix s] the integer denoted by a text with an
    optional sign.  Texts are lists of ASCII codes: 45 is '-', 43 is '+', 48 is '0',
    49 is '1'. *)

From Verif Require Import Base Bv Spec TextSpec.
From Verif Require Import Strings PropsArith PText PParse PropsText PropsTextMore.

(** ** C21 *)
Theorem C21_print : forall v w x, is_bv v w x ->
  exists s, bv_to_bit_str v = Ok s /\ len s = w
    /\ forall i, i < w -> nth (N.to_nat i) s 0 = if N.testbit x (w - 1 - i) then 49 else 48.
Proof. exact bit_str_print. Qed.
Print Assumptions C21_print.

Theorem C21_parse : forall m s, s <> [] -> Forall (fun c => c = 48 \/ c = 49) s -> len s < 2 ^ 32 ->
  exists v n, number 2 s = Some n /\ bv_from_bit_str m s = Ok (Parsed v)
    /\ is_bv v (len s) n /\ bv_to_bit_str v = Ok s.
Proof. exact bit_str_parse. Qed.
Print Assumptions C21_parse.

Theorem C21_round_trip : forall m v w x, is_bv v w x ->
  exists s, bv_to_bit_str v = Ok s /\ bv_from_bit_str m s = Ok (Parsed v).
Proof. exact bit_str_round_trip. Qed.
Print Assumptions C21_round_trip.

Example C21_example :
  is_bv (bv_of 66 (2 ^ 65 + 5)) 66 (2 ^ 65 + 5)
  /\ bv_to_bit_str (bv_of 66 (2 ^ 65 + 5)) = Ok ([49] ++ repeat 48 62 ++ [49; 48; 49])
  /\ bv_from_bit_str Debug [49; 48; 48] = Ok (Parsed (bv_of 3 4)).
Proof. split; [apply bv_of_is_bv; reflexivity|split; reflexivity]. Qed.

(** ** C22 *)
Theorem C22_print : forall m v w x, is_bv v w x ->
  exists s, bv_to_hex_str m v = Ok s /\ len s = (w + 3) / 4
    /\ (forall i, i < (w + 3) / 4 ->
          nth (N.to_nat i) s 0 = digit_char ((x / 16 ^ ((w + 3) / 4 - 1 - i)) mod 16))
    /\ number 16 s = Some x.
Proof. exact hex_str_print. Qed.
Print Assumptions C22_print.

Theorem C22_parse : forall m s, s <> [] -> Forall hex_digit s -> len s < 2 ^ 30 ->
  exists v n, number 16 s = Some n /\ bv_from_hex_str m s = Ok (Parsed v)
    /\ is_bv v (4 * len s) n /\ bv_to_hex_str m v = Ok (map lower s).
Proof. exact hex_str_parse. Qed.
Print Assumptions C22_parse.

(** For widths that are no multiple of four the width has to be given. *)
Theorem C22_round_trip : forall m v w x, is_bv v w x -> 0 < w -> w + 3 < 2 ^ 32 ->
  exists s, bv_to_hex_str m v = Ok s /\ bv_from_str_radix m s 16 w = Ok (Parsed v).
Proof. exact hex_str_round_trip. Qed.
Print Assumptions C22_round_trip.

Example C22_example :
  is_bv (bv_of 137 (2 ^ 136 + 255)) 137 (2 ^ 136 + 255)
  /\ bv_to_hex_str Debug (bv_of 137 (2 ^ 136 + 255)) = Ok ([49] ++ repeat 48 32 ++ [102; 102])
  /\ bv_from_str_radix Debug ([49] ++ repeat 48 32 ++ [102; 102]) 16 137
     = Ok (Parsed (bv_of 137 (2 ^ 136 + 255)))
  /\ bv_from_hex_str Debug [65; 98] = Ok (Parsed (bv_of 8 171)).
Proof. split; [apply bv_of_is_bv; reflexivity|split; [|split]; reflexivity]. Qed.

(** ** C23

    Full statement (false of the code): every value prints as decimal text that
    denotes it and reads back. *)
Theorem C23_print_partial : forall m v w x, is_bv v w x -> x < 2 ^ 128 ->
  m = Release \/ w * 3 < 2 ^ 32 ->
  exists s, bv_to_dec_str m v = Ok s /\ number 10 s = Some x /\ no_leading_zero s.
Proof. exact to_dec_str_raw. Qed.
Print Assumptions C23_print_partial.

(** The two conditions are necessary. *)
Theorem C23_print_wide_refuted : forall m v w x, is_bv v w x -> 2 ^ 128 <= x ->
  panics (bv_to_dec_str m v).
Proof. exact to_dec_str_wide. Qed.
Print Assumptions C23_print_wide_refuted.

Theorem C23_print_overflow_refuted : forall v w x, is_bv v w x -> 2 ^ 32 <= w * 3 ->
  panics (bv_to_dec_str Debug v).
Proof. exact to_dec_str_overflow. Qed.
Print Assumptions C23_print_overflow_refuted.

Theorem C23_round_trip_partial : forall m v w x, is_bv v w x -> 0 < w -> w <= 128 ->
  exists s, bv_to_dec_str m v = Ok s /\ bv_from_str_radix m s 10 w = Ok (Parsed v).
Proof. exact dec_str_round_trip. Qed.
Print Assumptions C23_round_trip_partial.

(** Above 128 bits every decimal text makes the parser panic. *)
Theorem C23_parse_wide_refuted : forall m s w z, 128 < w -> signed_text 10 s = Some z ->
  panics (bv_from_str_radix m s 10 w).
Proof. exact wide_dec_panics. Qed.
Print Assumptions C23_parse_wide_refuted.

Example C23_example :
  is_bv (bv_of 100 (2 ^ 70)) 100 (2 ^ 70)
  /\ bv_to_dec_str Debug (bv_of 100 (2 ^ 70))
     = Ok [49;49;56;48;53;57;49;54;50;48;55;49;55;52;49;49;51;48;51;52;50;52]
  /\ bv_from_str_radix Debug [49; 50; 51] 10 100 = Ok (Parsed (bv_of 100 123))
  /\ is_bv (bv_of 129 (2 ^ 128)) 129 (2 ^ 128) /\ signed_text 10 [49] = Some 1%Z.
Proof.
  split; [apply bv_of_is_bv; reflexivity|]. split; [reflexivity|]. split; [reflexivity|].
  split; [apply bv_of_is_bv; reflexivity|reflexivity].
Qed.

(** ** C24

    Full statement (false of the code):
    [forall m v w x, is_bv v w x -> 0 < w ->
       exists s, bv_to_bit_str_signed m v = Ok s /\ signed_text 2 s = Some (signed w x)],
    and the same for hex. *)
Theorem C24_bit_refuted : exists m v w x s, 0 < w /\ is_bv v w x
  /\ bv_to_bit_str_signed m v = Ok s /\ signed w x = (-8)%Z /\ signed_text 2 s = Some 0%Z.
Proof. exact bit_signed_refuted. Qed.
Print Assumptions C24_bit_refuted.

Theorem C24_hex_refuted : exists m v w x s, 0 < w /\ is_bv v w x
  /\ bv_to_hex_str_signed m v = Ok s /\ signed w x = (-16)%Z /\ signed_text 16 s = Some 0%Z.
Proof. exact hex_signed_refuted. Qed.
Print Assumptions C24_hex_refuted.

Theorem C24_distinct_refuted : exists m a b w x y s, is_bv a w x /\ is_bv b w y /\ x <> y
  /\ bv_to_bit_str_signed m a = Ok s /\ bv_to_bit_str_signed m b = Ok s.
Proof. exact bit_signed_collision. Qed.
Print Assumptions C24_distinct_refuted.

(** Exactly when the text denotes the value: not for width 1 and not for the
    minimum value, except by accident of the word / digit boundaries. *)
Theorem C24_bit_exact_partial : forall m v w x, is_bv v w x -> 0 < w ->
  ((exists s, bv_to_bit_str_signed m v = Ok s /\ signed_text 2 s = Some (signed w x))
   <-> 2 <= w /\ (x <> 2 ^ (w - 1) \/ w mod 64 = 1)).
Proof. exact bit_signed_exact. Qed.
Print Assumptions C24_bit_exact_partial.

Theorem C24_hex_exact_partial : forall m v w x, is_bv v w x -> 0 < w ->
  ((exists s, bv_to_hex_str_signed m v = Ok s /\ signed_text 16 s = Some (signed w x))
   <-> 2 <= w /\ (x <> 2 ^ (w - 1) \/ (w - 1) mod 4 <> 0)).
Proof. exact hex_signed_exact. Qed.
Print Assumptions C24_hex_exact_partial.

Theorem C24_bit_back_partial : forall m v w x, is_bv v w x -> 2 <= w ->
  x <> 2 ^ (w - 1) -> w mod 64 <> 1 ->
  exists s, bv_to_bit_str_signed m v = Ok s /\ bv_from_str_radix m s 2 w = Ok (Parsed v).
Proof. exact bit_signed_back. Qed.
Print Assumptions C24_bit_back_partial.

Theorem C24_hex_back_partial : forall m v w x, is_bv v w x -> 2 <= w -> w + 3 < 2 ^ 32 ->
  x <> 2 ^ (w - 1) \/ (w - 1) mod 4 <> 0 ->
  exists s, bv_to_hex_str_signed m v = Ok s /\ bv_from_str_radix m s 16 w = Ok (Parsed v).
Proof. exact hex_signed_back. Qed.
Print Assumptions C24_hex_back_partial.

(** The exact text: a '-' exactly for negative values, then a fixed number of
    digits denoting the magnitude modulo what the digits can hold. *)
Theorem C24_bit_text_partial : forall m v w x, is_bv v w x -> 2 <= w ->
  let K := if w mod 64 =? 1 then w + 63 else w - 1 in
  exists d, bv_to_bit_str_signed m v = Ok (if (signed w x <? 0)%Z then 45 :: d else d)
    /\ len d = K /\ number 2 d = Some (Z.abs_N (signed w x) mod 2 ^ K).
Proof. exact bit_signed_text. Qed.
Print Assumptions C24_bit_text_partial.

Theorem C24_hex_text_partial : forall m v w x, is_bv v w x -> 2 <= w ->
  let K := (w + 2) / 4 in
  exists d, bv_to_hex_str_signed m v = Ok (if (signed w x <? 0)%Z then 45 :: d else d)
    /\ len d = K /\ map lower d = d /\ number 16 d = Some (Z.abs_N (signed w x) mod 16 ^ K).
Proof. exact hex_signed_text. Qed.
Print Assumptions C24_hex_text_partial.

Example C24_example :
  is_bv (bv_of 130 (2 ^ 130 - 3)) 130 (2 ^ 130 - 3)
  /\ bv_to_hex_str_signed Debug (bv_of 130 (2 ^ 130 - 3)) = Ok ([45] ++ repeat 48 32 ++ [51])
  /\ bv_to_bit_str_signed Debug (bv_of 4 13) = Ok [45; 48; 49; 49].
Proof. split; [apply bv_of_is_bv; reflexivity|split; reflexivity]. Qed.

(** ** C25 *)
Theorem C25_minus_bits : forall m d n, d <> [] -> number 2 d = Some n -> len d + 1 < 2 ^ 32 ->
  exists v x, bv_from_bit_str m (45 :: d) = Ok (Parsed v) /\ is_bv v (len d + 1) x
    /\ signed (len d + 1) x = (- Z.of_N n)%Z.
Proof. exact minus_bits. Qed.
Print Assumptions C25_minus_bits.

Theorem C25_minus_hex : forall m d n, d <> [] -> number 16 d = Some n ->
  len d < 2 ^ 30 -> 4 * len d + 1 < 2 ^ 32 ->
  exists v x, bv_from_hex_str m (45 :: d) = Ok (Parsed v) /\ is_bv v (4 * len d + 1) x
    /\ signed (4 * len d + 1) x = (- Z.of_N n)%Z.
Proof. exact minus_hex. Qed.
Print Assumptions C25_minus_hex.

Theorem C25_plus_bits : forall m d n, d <> [] -> number 2 d = Some n -> len d < 2 ^ 32 ->
  bv_from_bit_str m (43 :: d) = bv_from_bit_str m d.
Proof. exact plus_bits. Qed.
Print Assumptions C25_plus_bits.

Theorem C25_plus_hex : forall m d n, d <> [] -> number 16 d = Some n -> len d < 2 ^ 30 ->
  bv_from_hex_str m (43 :: d) = bv_from_hex_str m d.
Proof. exact plus_hex. Qed.
Print Assumptions C25_plus_hex.

Example C25_example :
  number 2 [49; 48; 49] = Some 5
  /\ bv_from_bit_str Debug [45; 49; 48; 49] = Ok (Parsed (bv_of 4 11)) /\ signed 4 11 = (-5)%Z
  /\ bv_from_hex_str Debug (45 :: repeat 102 40) = Ok (Parsed (bv_of 161 (2 ^ 160 + 1)))
  /\ bv_from_hex_str Debug [43; 97] = Ok (Parsed (bv_of 4 10)).
Proof. repeat split. Qed.

(** ** C26

    Full statement (false of the code): [bv_from_str_radix m s radix w] is
    [Parsed v] with [is_bv v w z] if [s] denotes a [z] that fits, [ParseErr
    ExceedsWidth] if it denotes one that does not fit and [ParseErr InvalidDigit]
    if it denotes no number. *)
Theorem C26_width_refuted : exists m s w v, signed_text 16 s = Some 255%Z /\ w = 4
  /\ bv_from_str_radix m s 16 w = Ok (Parsed v) /\ ~ wf v.
Proof. exact parse_refuted_width. Qed.
Print Assumptions C26_width_refuted.

Theorem C26_digit_refuted : exists m s w v, signed_text 10 s = None
  /\ bv_from_str_radix m s 10 w = Ok (Parsed v).
Proof. exact parse_refuted_digit. Qed.
Print Assumptions C26_digit_refuted.

(** A number that fits is read correctly: up to 128 bits for every radix; above
    128 bits for radix 2 with at most [w] digits and for radix 16 as long as the
    digits fit the words (see [parser_fits] in PParse.v, spelled out here). *)
Theorem C26_fits_partial : forall m s r w z, 0 < w -> w < 2 ^ 32 ->
  signed_text r s = Some z -> Z.abs_N z < 2 ^ w ->
  (w <= 128 /\ 2 <= r /\ r <= 36)
  \/ (128 < w /\ r = 2 /\ len (without_sign s) <= w)
  \/ (128 < w /\ r = 16 /\ len (without_sign s) < 2 ^ 30
      /\ (len (without_sign s) + 15) / 16 <= (w + 63) / 64) ->
  exists v, bv_from_str_radix m s r w = Ok (Parsed v) /\ is_bv v w (wrap w z).
Proof. exact parse_ok. Qed.
Print Assumptions C26_fits_partial.

(** Up to 128 bits, whatever the magnitude: ExceedsWidth is reported when the
    magnitude exceeds the words, not when it exceeds the width. *)
Theorem C26_small_partial : forall m s r w z, 0 < w -> w <= 128 -> 2 <= r -> r <= 36 ->
  signed_text r s = Some z ->
  (2 ^ (64 * ((w + 63) / 64)) <= Z.abs_N z -> bv_from_str_radix m s r w = Ok (ParseErr ExceedsWidth))
  /\ (Z.abs_N z < 2 ^ (64 * ((w + 63) / 64)) ->
      exists v, bv_from_str_radix m s r w = Ok (Parsed v) /\ width v = w
        /\ if has_minus s then is_bv v w (wrap w z) else uval v = Z.to_N z).
Proof. exact small_cases. Qed.
Print Assumptions C26_small_partial.

(** So every unsigned text between the two limits gives an ill-formed value. *)
Theorem C26_small_unchecked_refuted : forall m s r w n, 0 < w -> w <= 128 -> 2 <= r -> r <= 36 ->
  s <> [] -> number r s = Some n -> 2 ^ w <= n -> n < 2 ^ (64 * ((w + 63) / 64)) ->
  exists v, bv_from_str_radix m s r w = Ok (Parsed v) /\ uval v = n /\ ~ wf v.
Proof. exact small_unchecked. Qed.
Print Assumptions C26_small_unchecked_refuted.

(** Texts that denote no number are rejected, except "" and those starting "-+". *)
Theorem C26_small_digit_partial : forall m s r w, 0 < w -> w <= 128 -> 2 <= r -> r <= 36 ->
  s <> [] -> signed_text r s = None -> match s with 45 :: 43 :: _ => False | _ => True end ->
  exists k, bv_from_str_radix m s r w = Ok (ParseErr k).
Proof. exact small_not_a_number. Qed.
Print Assumptions C26_small_digit_partial.

(** Which error: InvalidDigit, unless the digits before the first bad character
    already exceed the words. *)
Theorem C26_small_kind_partial : forall m pre c rest r w n, 0 < w -> w <= 128 -> 2 <= r -> r <= 36 ->
  number r pre = Some n -> digit_value r c = None -> (pre = [] -> c <> 43 /\ c <> 45) ->
  let k := if n <? 2 ^ (64 * ((w + 63) / 64)) then InvalidDigit else ExceedsWidth in
  bv_from_str_radix m (pre ++ c :: rest) r w = Ok (ParseErr k)
  /\ bv_from_str_radix m (43 :: pre ++ c :: rest) r w = Ok (ParseErr k)
  /\ bv_from_str_radix m (45 :: pre ++ c :: rest) r w = Ok (ParseErr k).
Proof. exact small_first_bad. Qed.
Print Assumptions C26_small_kind_partial.

Theorem C26_sign_only_partial : forall m c r w, 0 < w -> w <= 128 -> 2 <= r -> r <= 36 ->
  c = 43 \/ c = 45 -> bv_from_str_radix m [c] r w = Ok (ParseErr InvalidDigit).
Proof. exact sign_only. Qed.
Print Assumptions C26_sign_only_partial.

(** Above 128 bits. *)
Theorem C26_wide_long_partial : forall m s w z, 128 < w -> signed_text 2 s = Some z ->
  w < len (without_sign s) -> len (without_sign s) < 2 ^ 32 ->
  bv_from_str_radix m s 2 w = Ok (ParseErr ExceedsWidth).
Proof. exact wide_bin_long. Qed.
Print Assumptions C26_wide_long_partial.

Theorem C26_wide_digit_bin_partial : forall m d w, 128 < w -> w < 2 ^ 32 -> d <> [] ->
  number 2 d = None -> len d <= w ->
  match d with c :: _ => c <> 43 /\ c <> 45 | [] => True end ->
  bv_from_str_radix m d 2 w = Ok (ParseErr InvalidDigit).
Proof. exact wide_bin_bad. Qed.
Print Assumptions C26_wide_digit_bin_partial.

Theorem C26_wide_digit_hex_partial : forall m d w, 128 < w -> d <> [] ->
  number 16 d = None -> len d < 2 ^ 30 -> (len d + 15) / 16 <= (w + 63) / 64 ->
  match d with c :: _ => c <> 43 /\ c <> 45 | [] => True end ->
  bv_from_str_radix m d 16 w = Ok (ParseErr InvalidDigit).
Proof. exact wide_hex_bad. Qed.
Print Assumptions C26_wide_digit_hex_partial.

Theorem C26_wide_hex_refuted : forall m s w z, 128 < w -> signed_text 16 s = Some z ->
  (w + 63) / 64 < (len (without_sign s) + 15) / 16 -> len (without_sign s) < 2 ^ 30 ->
  panics (bv_from_str_radix m s 16 w).
Proof. exact wide_hex_panics. Qed.
Print Assumptions C26_wide_hex_refuted.

Example C26_example :
  bv_from_str_radix Debug [45; 50; 53; 53] 10 9 = Ok (Parsed (bv_of 9 257))
  /\ bv_from_str_radix Debug (repeat 57 20) 10 64 = Ok (ParseErr ExceedsWidth)
  /\ bv_from_str_radix Debug [49; 120] 16 64 = Ok (ParseErr InvalidDigit)
  /\ bv_from_str_radix Debug (45 :: repeat 57 20 ++ [120]) 10 64 = Ok (ParseErr ExceedsWidth)
  /\ bv_from_str_radix Debug (repeat 49 200) 2 199 = Ok (ParseErr ExceedsWidth)
  /\ bv_from_str_radix Debug [49; 50] 2 199 = Ok (ParseErr InvalidDigit)
  /\ bv_from_str_radix Debug [49; 120] 16 199 = Ok (ParseErr InvalidDigit)
  /\ bv_from_str_radix Debug (repeat 49 65) 16 199 = Panic PIndex
  /\ number 16 [102; 102] = Some 255.
Proof. repeat split. Qed.

(** ** C27

    Full statement (false of the code): for every text there is either a value
    that every target of that width ends up with (Ok), or every target keeps
    its value (Err). *)
Theorem C27_stale_refuted : exists m old s v, is_bv old 192 (2 ^ 191)
  /\ bv_assign_from_str_radix m old s 2 = Ok (v, None)
  /\ signed_text 2 s = Some 1%Z /\ uval v = 2 ^ 191 + 1.
Proof. exact assign_stale_refuted. Qed.
Print Assumptions C27_stale_refuted.

Theorem C27_torn_refuted : exists m old s v k, is_bv old 192 0
  /\ bv_assign_from_str_radix m old s 2 = Ok (v, Some k) /\ uval v <> 0.
Proof. exact assign_torn_refuted. Qed.
Print Assumptions C27_torn_refuted.

(** Up to 128 bits it holds for every non-empty text ... *)
Theorem C27_small_partial : forall m s r w, 0 < w -> w <= 128 -> 2 <= r -> r <= 36 -> s <> [] ->
  (exists v, forall old, wf old -> width old = w ->
     bv_assign_from_str_radix m old s r = Ok (v, None))
  \/ (exists k, forall old, wf old -> width old = w ->
     bv_assign_from_str_radix m old s r = Ok (old, Some k)).
Proof. exact assign_small. Qed.
Print Assumptions C27_small_partial.

(** ... the empty text changes nothing and is no error ... *)
Theorem C27_empty_refuted : forall m old r, bv_assign_from_str_radix m old [] r = Ok (old, None).
Proof. exact assign_empty. Qed.
Print Assumptions C27_empty_refuted.

(** ... and above 128 bits the words beyond the text keep their contents. *)
Theorem C27_wide_bin_partial : forall m old w x d n, is_bv old w x -> 128 < w -> d <> [] ->
  number 2 d = Some n -> len d <= w ->
  exists v, bv_assign_from_str_radix m old d 2 = Ok (v, None) /\ width v = w
    /\ let k := (len d + 63) / 64 in uval v = n + 2 ^ (64 * k) * (x / 2 ^ (64 * k)).
Proof. exact assign_wide_bin. Qed.
Print Assumptions C27_wide_bin_partial.

Theorem C27_wide_hex_partial : forall m old w x d n, is_bv old w x -> 128 < w -> d <> [] ->
  number 16 d = Some n -> len d < 2 ^ 30 -> (len d + 15) / 16 <= (w + 63) / 64 ->
  exists v, bv_assign_from_str_radix m old d 16 = Ok (v, None) /\ width v = w
    /\ let k := (len d + 15) / 16 in uval v = n + 2 ^ (64 * k) * (x / 2 ^ (64 * k)).
Proof. exact assign_wide_hex. Qed.
Print Assumptions C27_wide_hex_partial.

Example C27_example :
  wf (bv_of 100 7)
  /\ bv_assign_from_str_radix Debug (bv_of 100 7) [49; 50] 10 = Ok (bv_of 100 12, None)
  /\ bv_assign_from_str_radix Debug (bv_of 100 7) [49; 46] 10 = Ok (bv_of 100 7, Some InvalidDigit)
  /\ is_bv (bv_of 192 (2 ^ 100)) 192 (2 ^ 100)
  /\ bv_assign_from_str_radix Debug (bv_of 192 (2 ^ 100)) [49; 48] 16
     = Ok (bv_of 192 (2 ^ 100 + 16), None).
Proof.
  split; [apply (bv_of_is_bv 100 7); reflexivity|]. split; [reflexivity|]. split; [reflexivity|].
  split; [apply bv_of_is_bv; reflexivity|reflexivity].
Qed.
