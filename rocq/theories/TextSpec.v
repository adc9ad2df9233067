(** * TextSpec: which number a text denotes.

    A text is the list of its ASCII codes ('0' = 48, '9' = 57, 'a' = 97,
    'A' = 65, '+' = 43, '-' = 45). *)

From Verif Require Import Base.

(** Value of a digit in the given radix: 0-9, a-z and A-Z as usual. *)
Definition digit_value (radix c : N) : option N :=
  let v := if (48 <=? c) && (c <=? 57) then c - 48
           else if (97 <=? c) && (c <=? 122) then c - 87
           else if (65 <=? c) && (c <=? 90) then c - 55
           else radix in
  if v <? radix then Some v else None.

(** Positional value of a sequence of digits, most significant first:
    digit * radix ^ (number of digits to its right), summed up.
    [None] if some character is no digit. *)
Fixpoint number (radix : N) (s : list N) : option N :=
  match s with
  | [] => Some 0
  | c :: t =>
      match digit_value radix c, number radix t with
      | Some d, Some n => Some (d * radix ^ N.of_nat (length t) + n)
      | _, _ => None
      end
  end.

(** Number denoted by a text without sign: at least one digit. *)
Definition unsigned_text (radix : N) (s : list N) : option N :=
  match s with [] => None | _ => number radix s end.

(** Integer denoted by a text with an optional sign. *)
Definition signed_text (radix : N) (s : list N) : option Z :=
  match s with
  | c :: d =>
      if c =? 45 then option_map (fun n => (- Z.of_N n)%Z) (unsigned_text radix d)
      else if c =? 43 then option_map Z.of_N (unsigned_text radix d)
      else option_map Z.of_N (unsigned_text radix s)
  | [] => None
  end.

(** Lower-case form of an ASCII character. *)
Definition lower (c : N) : N := if (65 <=? c) && (c <=? 90) then c + 32 else c.

(** The character for a digit value below 36, lower case. *)
Definition digit_char (d : N) : N := if d <? 10 then 48 + d else 87 + d.

(** [s] is a decimal numeral without superfluous leading zeros. *)
Definition no_leading_zero (s : list N) : Prop :=
  match s with [] => False | [_] => True | c :: _ => c <> 48 end.

(** The text without its sign, if it has one. *)
Definition without_sign (s : list N) : list N :=
  match s with c :: d => if (c =? 45) || (c =? 43) then d else s | [] => [] end.

(** [c] is a hexadecimal digit of either case. *)
Definition hex_digit (c : N) : Prop := 48 <= c <= 57 \/ 97 <= c <= 102 \/ 65 <= c <= 70.

(** Does the text start with '-'? *)
Definition has_minus (s : list N) : bool := match s with c :: _ => c =? 45 | [] => false end.

(** The text after a leading '-'. *)
Definition after_minus (s : list N) : list N :=
  match s with c :: t => if c =? 45 then t else s | [] => [] end.

(** The text after a leading '-', then a leading '+'. *)
Definition digits_of (s : list N) : list N :=
  match after_minus s with c :: t => if c =? 43 then t else c :: t | [] => [] end.
