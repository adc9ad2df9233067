(** * PropertiesLong: parsing texts of any length (C95). *)

From Verif Require Import Base Strings Bv Spec TextSpec CallSpec ParseSpec Unwind LongSpec PLong.

(** C95: [assign_from_str_radix] into any bit-vector, with any text that memory can hold:
    how the call ends and the number the bit-vector then holds, also after a panic.
    (C81_same_parse: this is the call of the other theorems.) *)
Theorem C95_assign : forall m old s radix, well_shaped old -> len s < 2 ^ 63 ->
  ends_as (un_from_str_radix m s radix (width old) (words old)) (width old)
    (any_reading m radix (width old) (uval old) s).
Proof. exact long_assign. Qed.
Print Assumptions C95_assign.

(** C95: [from_str_radix] *)
Theorem C95_parse : forall m s radix w, w < 2 ^ 32 -> len s < 2 ^ 63 ->
  gives (bv_from_str_radix m s radix w) w (any_reading m radix w 0 s).
Proof. exact long_parse. Qed.
Print Assumptions C95_parse.

(** C95: [from_bit_str] *)
Theorem C95_bit_str : forall m s, len s < 2 ^ 63 ->
  match any_width m 1 s with
  | Some w => gives (bv_from_bit_str m s) w (any_reading m 2 w 0 s)
  | None => panics (bv_from_bit_str m s)
  end.
Proof. exact long_bit_str. Qed.
Print Assumptions C95_bit_str.

(** C95: [from_hex_str] *)
Theorem C95_hex_str : forall m s, len s < 2 ^ 63 ->
  match any_width m 4 s with
  | Some w => gives (bv_from_hex_str m s) w (any_reading m 16 w 0 s)
  | None => panics (bv_from_hex_str m s)
  end.
Proof. exact long_hex_str. Qed.
Print Assumptions C95_hex_str.

(** C95: The description is that of C73 for all texts of fewer than 2^30 digits, for all
    targets of at most 128 bits, for all bases but 2 and 16, and for fewer than 2^32 binary
    digits.  A panic then leaves the target unchanged. *)
Theorem C95_short : forall m radix w x s,
  len (digits_of s) < 2 ^ 30 \/ w <= 128 \/ (radix <> 2 /\ radix <> 16)
    \/ (radix = 2 /\ len (digits_of s) < 2 ^ 32) ->
  any_reading m radix w x s =
  match reading_of radix w x s with Reads n => Accepts n | Fails k n => Rejects k n | Breaks => Stops x end.
Proof. exact long_short. Qed.
Print Assumptions C95_short.

(** C95: More than 128 bits never accept a text whose digits are too many to be counted. *)
Theorem C95_never : forall m old s radix v, well_shaped old -> len s < 2 ^ 63 -> 128 < width old ->
  (radix = 16 /\ 2 ^ 30 <= len (digits_of s)) \/ (radix = 2 /\ 2 ^ 32 <= len (digits_of s)) ->
  bv_assign_from_str_radix m old s radix <> Ok (v, None).
Proof. exact long_never. Qed.
Print Assumptions C95_never.

(** C95: A release build parses 2^30 zeros and up to 32 more hexadecimal digits to a number as
    wide as the last digits only; a debug build panics. *)
Theorem C95_silent : forall k t n, N.of_nat k = 2 ^ 30 -> 0 < len t -> len t <= 32 -> number 16 t = Some n ->
  panics (bv_from_hex_str Debug (repeat 48 k ++ t))
  /\ exists v, bv_from_hex_str Release (repeat 48 k ++ t) = Ok (Parsed v) /\ well_shaped v
     /\ width v = 4 * len t /\ uval v = n.
Proof. exact silent_width. Qed.
Print Assumptions C95_silent.

(** C95: 2^32 + 1 binary zeros are refused with a panic, not with an error.  In a release
    build the lowest word of the target is gone by then. *)
Theorem C95_torn : forall m old k, well_shaped old -> 128 < width old -> N.of_nat k = 2 ^ 32 + 1 ->
  ends_as (un_from_str_radix m (repeat 48 k) 2 (width old) (words old)) (width old)
    (Stops match m with Debug => uval old | Release => 2 ^ 64 * (uval old / 2 ^ 64) end).
Proof. exact torn_by_zeros. Qed.
Print Assumptions C95_torn.

(** The outcomes for long texts, in terms of the number of digits: see [long_hex], [long_bin].
    A text with its 21st digit bad, 130 bits that hold 2^129 + 5, where 2 words are counted and the first
    group has 8 digits; and the same text cut short by a panic at digit 9. *)
Example C95_example :
  let d := repeat 49 20 ++ [120; 49; 49; 49] in
  cut 4 (2 ^ 129 + 5) 2 2 40 d = Rejects InvalidDigit (2 ^ 129 + 5 + 2 ^ 64 * 286331153)
  /\ cut 4 (2 ^ 129 + 5) 2 2 8 d = Stops (2 ^ 129 + 5 + 2 ^ 64 * 286331153)
  /\ cut 4 (2 ^ 129 + 5) 2 0 8 d = Stops (2 ^ 129 + 5)
  /\ any_reading Debug 16 130 5 (45 :: repeat 48 50) = Stops 5
  /\ any_reading Release 2 130 (2 ^ 129 + 1) [49; 48] = Accepts (2 ^ 129 + 2)
  /\ any_reading Release 10 8 0 [45; 55] = Accepts 249
  /\ any_width Debug 4 [45; 49; 50] = Some 9
  /\ well_shaped (bv_of 130 5) /\ uval (bv_of 130 5) = 5 /\ number 16 [49; 102] = Some 31.
Proof. repeat split; try reflexivity. repeat constructor. Qed.

(** a text as long as the theorems about long texts demand *)
Example C95_example_long : exists k, N.of_nat k = 2 ^ 32 + 1 /\ len (repeat 48 k) < 2 ^ 63
  /\ any_width Release 4 (repeat 48 k) = Some 4 /\ 2 ^ 32 <= len (digits_of (repeat 48 k)).
Proof. exact long_text. Qed.
