(** * ParseSpec: what parsing does with every text.

    [reading_of radix w x s] is the outcome of parsing the text [s] into [w]
    bits that hold the number [x] so far (a fresh bit-vector: [x = 0]). *)

From Verif Require Import Base Strings Bv Spec TextSpec CallSpec.

Inductive reading :=
| Reads (n : N)                        (* success, the bits now hold [n] *)
| Fails (k : int_error_kind) (n : N)   (* an error, the bits now hold [n] *)
| Breaks.                              (* a panic *)

(** The longest prefix of [s] that is made of digits. *)
Fixpoint leading (radix : N) (s : list N) : list N :=
  match s with
  | c :: t => match digit_value radix c with Some _ => c :: leading radix t | None => [] end
  | [] => []
  end.

(** The number written by the leading digits of [s]. *)
Definition leading_number (radix : N) (s : list N) : N :=
  match number radix (leading radix s) with Some n => n | None => 0 end.

(** [x] with its words [from .. upto - 1] replaced by those of [n], where [n] has
    at most [upto] words. *)
Definition overwrite (x n from upto : N) : N :=
  x mod 2 ^ (64 * from)
  + 2 ^ (64 * from) * (n / 2 ^ (64 * from))
  + 2 ^ (64 * upto) * (x / 2 ^ (64 * upto)).

(** the words that [k] digits of [b] bits take *)
Definition digit_words (b k : N) : N := (b * k + 63) / 64.

(** At most 128 bits.  The number has to fit one or two whole words, not the
    width.  The first digit that is one too many or bad decides. *)
Definition read_small (radix w x : N) (d : list N) : reading :=
  if 2 ^ (64 * ((w + 63) / 64)) <=? leading_number radix d then Fails ExceedsWidth x
  else if len (leading radix d) =? len d then Reads (leading_number radix d)
  else Fails InvalidDigit x.

(** More than 128 bits, [b] bits per digit, few enough digits.  The words that
    the digits do not reach keep what they held.  A bad digit stops the work: the
    words that were complete by then have been written already. *)
Definition read_wide (b x : N) (d : list N) : reading :=
  let missing := len d - len (leading (2 ^ b) d) in
  if missing =? 0
  then Reads (overwrite x (leading_number (2 ^ b) d) 0 (digit_words b (len d)))
  else Fails InvalidDigit
         (overwrite x (leading_number (2 ^ b) d * 2 ^ (b * missing))
            (digit_words b missing) (digit_words b (len d))).

(** The text without its signs. *)
Definition read_digits (radix w x : N) (d : list N) : reading :=
  if w <=? 128 then
    if (2 <=? radix) && (radix <=? 36)
    then match d with [] => Fails InvalidDigit x | _ => read_small radix w x d end
    else Breaks
  else match d with
    | [] => Fails InvalidDigit x
    | _ =>
        if radix =? 2 then
          if w <? len d then Fails ExceedsWidth x else read_wide 1 x d
        else if radix =? 16 then
          (* more digits than fit the words: an index out of bounds as soon as the
             incomplete leading group of sixteen is done *)
          if 16 * ((w + 63) / 64) <? len d then
            if (len d - 1) mod 16 + 1 <=? len (leading 16 d) then Breaks else Fails InvalidDigit x
          else read_wide 4 x d
        else Breaks
    end.

(** The whole text: an optional '-', an optional '+' (in this order), digits.
    The empty text changes nothing, without bits only "0" is accepted. *)
Definition reading_of (radix w x : N) (s : list N) : reading :=
  if len s =? 0 then Reads x
  else if w =? 0 then
    match after_minus s with
    | [c] => if c =? 48 then Reads x else Fails ExceedsWidth x
    | _ => Fails ExceedsWidth x
    end
  else match after_minus s with
    | [] => Fails InvalidDigit x
    | _ =>
        match read_digits radix w x (digits_of s) with
        | Reads n => Reads (if has_minus s then wrap w (- Z.of_N n) else n)
        | r => r
        end
    end.

(** ** What the API returns for an outcome *)

(** [assign_from_str_radix] *)
Definition assigned (r : res (bv * option int_error_kind)) (w : N) (o : reading) : Prop :=
  match o with
  | Reads n => exists v, r = Ok (v, None) /\ well_shaped v /\ width v = w /\ uval v = n
  | Fails k n => exists v, r = Ok (v, Some k) /\ well_shaped v /\ width v = w /\ uval v = n
  | Breaks => panics r
  end.

(** [from_str_radix], [from_bit_str], [from_hex_str] *)
Definition parses_to (r : res parsed) (w : N) (o : reading) : Prop :=
  match o with
  | Reads n => exists v, r = Ok (Parsed v) /\ well_shaped v /\ width v = w /\ uval v = n
  | Fails k _ => r = Ok (ParseErr k)
  | Breaks => panics r
  end.

(** The width that [from_bit_str] ([b = 1]) and [from_hex_str] ([b = 4]) choose: that
    of the digits and one bit for a minus. *)
Definition text_width (b : N) (s : list N) : N :=
  b * len (without_sign s) + if has_minus s then 1 else 0.
