(** * C73: parsing is determined for every text, target and radix. *)

From Verif Require Import Base Strings Bv Spec TextSpec CallSpec ParseSpec PReading.

(** C73: [assign_from_str_radix] into any bit-vector: the outcome, the error and
    the number the bit-vector is left with are those of [reading_of]. *)
Theorem C73_assign : forall m old s radix,
  well_shaped old -> len s < 2 ^ 30 ->
  assigned (bv_assign_from_str_radix m old s radix) (width old)
    (reading_of radix (width old) (uval old) s).
Proof. exact reading_assign. Qed.
Print Assumptions C73_assign.

(** C73: [from_str_radix] *)
Theorem C73_parse : forall m s radix w,
  w < 2 ^ 32 -> len s < 2 ^ 30 ->
  parses_to (bv_from_str_radix m s radix w) w (reading_of radix w 0 s).
Proof. exact reading_parse. Qed.
Print Assumptions C73_parse.

(** C73: [from_bit_str] *)
Theorem C73_bit_str : forall m s, len s + 1 < 2 ^ 30 ->
  parses_to (bv_from_bit_str m s) (text_width 1 s) (reading_of 2 (text_width 1 s) 0 s).
Proof. exact reading_bit_str. Qed.
Print Assumptions C73_bit_str.

(** C73: [from_hex_str] *)
Theorem C73_hex_str : forall m s, len s + 1 < 2 ^ 30 ->
  parses_to (bv_from_hex_str m s) (text_width 4 s) (reading_of 16 (text_width 4 s) 0 s).
Proof. exact reading_hex_str. Qed.
Print Assumptions C73_hex_str.

(** C73: the outcome for a text that denotes a number of the width is that number,
    within the digits the parser supports. *)
Theorem C73_meaning : forall radix w s z,
  0 < w -> signed_text radix s = Some z -> Z.abs_N z < 2 ^ w ->
  (w <= 128 /\ 2 <= radix <= 36) \/ (radix = 2 /\ len (digits_of s) <= w)
    \/ (radix = 16 /\ len (digits_of s) <= 16 * ((w + 63) / 64)) ->
  reading_of radix w 0 s = Reads (wrap w z).
Proof. exact reading_meaning. Qed.
Print Assumptions C73_meaning.

(** "12x4" and "-7" in decimal; "1" and "-0" without bits; "-" alone; a decimal of
    twenty digits that exceeds the word before its bad digit is reached; 33
    hexadecimal digits with the eighteenth bad, into 130 bits that hold 5 *)
Example C73_example :
  reading_of 10 32 9 [49; 50; 120; 52] = Fails InvalidDigit 9
  /\ reading_of 10 4 9 [45; 55] = Reads 9
  /\ reading_of 10 0 0 [49] = Fails ExceedsWidth 0
  /\ reading_of 10 0 0 [45; 48] = Reads 0
  /\ reading_of 16 8 3 [45] = Fails InvalidDigit 3
  /\ reading_of 10 64 0 (repeat 57 20 ++ [120]) = Fails ExceedsWidth 0
  /\ reading_of 16 130 5 (repeat 48 16 ++ [49; 103] ++ repeat 48 15) = Fails InvalidDigit (5 + 2 ^ 64)
  /\ reading_of 16 130 5 (repeat 48 50) = Breaks
  /\ reading_of 10 130 5 [49] = Breaks
  /\ reading_of 2 130 (2 ^ 129 + 1) [49; 48] = Reads (2 ^ 129 + 2)
  /\ well_shaped (bv_of 130 5) /\ uval (bv_of 130 5) = 5.
Proof. repeat split; try reflexivity. repeat constructor. Qed.
