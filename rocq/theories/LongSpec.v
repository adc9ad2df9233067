(** * LongSpec: what parsing does with texts of any length.

    The parsers count bits in 32 bits and digits in 32 bits.  [any_reading] is
    [reading_of] (ParseSpec.v) without a limit on the length of the text, and says what
    the target holds when the call panics. *)

From Verif Require Import Base Strings Bv Spec TextSpec CallSpec ParseSpec Unwind.

Inductive outcome :=
| Accepts (n : N)                          (* success, the bits now hold [n] *)
| Rejects (k : int_error_kind) (n : N)     (* an error, the bits now hold [n] *)
| Stops (n : N).                           (* a panic, the bits now hold [n] *)

(** [x] with its words [from .. upto - 1] replaced by those of [n], which has
    [upto - from] words. *)
Definition splice (x n from upto : N) : N :=
  x mod 2 ^ (64 * from) + 2 ^ (64 * from) * n + 2 ^ (64 * upto) * (x / 2 ^ (64 * upto)).

(** Parsers for more than 128 bits write one word per group of [64 / b] digits of [b] bits,
    from word [top - 1] down, each when the first digit of the next group is due.  The first
    group may be smaller. *)
Definition first_group (b : N) (d : list N) : N := (len d - 1) mod (64 / b) + 1.

(** The call panics when it gets to digit [stop], with [most] words written by then.  It fails
    if it gets to a bad digit earlier. *)
Definition cut (b x top most stop : N) (d : list N) : outcome :=
  let per := 64 / b in
  let good := len (leading (2 ^ b) d) in
  let done := N.min most ((good + per - first_group b d) / per) in
  let n := if done =? 0 then x
           else splice x (leading_number (2 ^ b) (firstn (N.to_nat (first_group b d + per * (done - 1))) d))
                  (top - done) top in
  if stop <=? good then Stops n else Rejects InvalidDigit n.

(** A text of 2^30 or more digits, base 16.  The words are counted in 32 bits.  A release
    build writes this many words and panics at the next one.  A debug build
    panics if it notices that the count overflows, and otherwise after the last word. *)
Definition long_hex (m : mode) (w x : N) (d : list N) : outcome :=
  let digits := len d mod 2 ^ 32 in
  let top := ((4 * digits) mod 2 ^ 32 + 63) / 64 in
  if (match m with Debug => true | Release => false end) && ((digits =? 0) || (2 ^ 32 <=? 4 * digits)) then Stops x
  else if (top =? 0) || ((w + 63) / 64 <? top) then cut 4 x top 0 (first_group 4 d) d
  else cut 4 x top top (first_group 4 d + 16 * match m with Debug => top - 1 | Release => top end) d.

(** A text of 2^32 or more digits, base 2.  The digits are counted in 32 bits.  A debug build
    panics when it has read as many as it counted, before it writes the last word. *)
Definition long_bin (m : mode) (w x : N) (d : list N) : outcome :=
  let digits := len d mod 2 ^ 32 in
  let top := (digits + 63) / 64 in
  if w <? digits then Rejects ExceedsWidth x
  else match m with
       | Debug => if digits =? 0 then Stops x else cut 1 x top (top - 1) digits d
       | Release => cut 1 x top top (first_group 1 d + 64 * top) d
       end.

(** A text without its signs. *)
Definition any_digits (m : mode) (radix w x : N) (d : list N) : outcome :=
  if (128 <? w) && (radix =? 16) && (2 ^ 30 <=? len d) then long_hex m w x d
  else if (128 <? w) && (radix =? 2) && (2 ^ 32 <=? len d) then long_bin m w x d
  else match read_digits radix w x d with
       | Reads n => Accepts n
       | Fails k n => Rejects k n
       | Breaks => Stops x
       end.

(** The whole text. *)
Definition any_reading (m : mode) (radix w x : N) (s : list N) : outcome :=
  if len s =? 0 then Accepts x
  else if w =? 0 then
    match after_minus s with
    | [c] => if c =? 48 then Accepts x else Rejects ExceedsWidth x
    | _ => Rejects ExceedsWidth x
    end
  else match after_minus s with
    | [] => Rejects InvalidDigit x
    | _ =>
        match any_digits m radix w x (digits_of s) with
        | Accepts n => Accepts (if has_minus s then wrap w (- Z.of_N n) else n)
        | r => r
        end
    end.

(** The words [ws] of a bit-vector of [w] bits hold the number [n]. *)
Definition holds (w n : N) (ws : list N) : Prop :=
  well_shaped (mkbv w ws) /\ uval (mkbv w ws) = n.

(** How [assign_from_str_radix] ends (with the words it leaves, Unwind.v). *)
Definition ends_as (e : ending (list N) (option int_error_kind)) (w : N) (o : outcome) : Prop :=
  match o with
  | Accepts n => exists ws, e = Returned ws None /\ holds w n ws
  | Rejects k n => exists ws, e = Returned ws (Some k) /\ holds w n ws
  | Stops n => exists ws p, e = Unwound ws p /\ holds w n ws
  end.

(** What [from_str_radix], [from_bit_str] and [from_hex_str] return. *)
Definition gives (r : res parsed) (w : N) (o : outcome) : Prop :=
  match o with
  | Accepts n => exists v, r = Ok (Parsed v) /\ well_shaped v /\ width v = w /\ uval v = n
  | Rejects k _ => r = Ok (ParseErr k)
  | Stops _ => panics r
  end.

(** The width that [from_bit_str] ([b = 1]) and [from_hex_str] ([b = 4]) choose for a text
    of any length; [None]: a debug build panics.  The number of digits is always taken
    modulo 2^32, the number of bits in a release build only. *)
Definition any_width (m : mode) (b : N) (s : list N) : option N :=
  let n := b * (len (without_sign s) mod 2 ^ 32) + if has_minus s then 1 else 0 in
  if n <? 2 ^ 32 then Some n else match m with Debug => None | Release => Some (n mod 2 ^ 32) end.
