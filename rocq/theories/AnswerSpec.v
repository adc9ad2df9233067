(** * AnswerSpec: what every call that looks at one bit-vector answers (C78).

    [tell m l a] performs the call.  [look_result l w n] is the answer for a [w]-bit
    value whose storage holds the number [n] (unused bits included): computed
    from [w] and [n] only.  [None] is a panic of a debug build. *)

From Coq Require Import QArith.
From Verif Require Import Base Strings Bv Spec TextSpec CallSpec PanicSpec MixedSpec.
Local Open Scope N_scope.

Inductive look :=
| LWidth | LIsZero | LIsTru | LIsFals | LIsNegative | LIsBitSet (pos : N)
| LBool | LU64 | LI64 | LBigInt | LBigUint
| LBitStr | LBitStrSigned | LHexStr | LHexStrSigned | LDecStr | LBytes
| LFixed (f : N) | LFixedSigned (f : N).

Inductive answer :=
| ABool (b : bool) | AOptBool (b : option bool)
| ANum (n : N) | AOptNum (n : option N)
| AInt (z : Z) | AOptInt (z : option Z)
| AText (s : list N) | ARatio (q : option Q).

Definition tell (m : mode) (l : look) (a : bv) : res answer :=
  let say {A} (k : A -> answer) (r : res A) := let* x := r in Ok (k x) in
  match l with
  | LWidth => Ok (ANum (width a))
  | LIsZero => Ok (ABool (bv_is_zero a))
  | LIsTru => say ABool (bv_is_tru a)
  | LIsFals => say ABool (bv_is_fals a)
  | LIsNegative => say ABool (bv_is_negative m a)
  | LIsBitSet pos => say ABool (bv_is_bit_set a pos)
  | LBool => say AOptBool (bv_to_bool a)
  | LU64 => Ok (AOptNum (bv_to_u64 a))
  | LI64 => say AOptInt (bv_to_i64 m a)
  | LBigInt => say AInt (bv_to_big_int m a)
  | LBigUint => say ANum (bv_to_big_uint a)
  | LBitStr => say AText (bv_to_bit_str a)
  | LBitStrSigned => say AText (bv_to_bit_str_signed m a)
  | LHexStr => say AText (bv_to_hex_str m a)
  | LHexStrSigned => say AText (bv_to_hex_str_signed m a)
  | LDecStr => say AText (bv_to_dec_str m a)
  | LBytes => Ok (AText (bv_to_bytes_le a))
  | LFixed f => say ARatio (bv_to_unsigned_fixed_point m a f)
  | LFixedSigned f => say ARatio (bv_to_signed_fixed_point m a f)
  end.

(** the last [k] digits of [n], with [b] bits per digit *)
Fixpoint digits (b : N) (k : nat) (n : N) : list N :=
  match k with
  | O => []
  | S k' => digit_char ((n / 2 ^ (b * N.of_nat k')) mod 2 ^ b) :: digits b k' n
  end.

(** the first [k] bytes of [n], the least significant one first *)
Fixpoint low_bytes (k : nat) (n : N) : list N :=
  match k with O => [] | S k' => n mod 256 :: low_bytes k' (n / 256) end.

(** [n] in decimal; [N.size n] digits are more than enough *)
Fixpoint decimal_digits (fuel : nat) (n : N) : list N :=
  match fuel with
  | O => [digit_char n]
  | S f => if n <? 10 then [digit_char n] else decimal_digits f (n / 10) ++ [digit_char (n mod 10)]
  end.
Definition decimal (n : N) : list N := decimal_digits (N.to_nat (N.size n)) n.

(** the sign bit *)
Definition top (w n : N) : bool := N.testbit n (w - 1).

(** the number that the signed texts and fractions show after the sign *)
Definition shown (w n : N) : N := if top w n then wrap w (- Z.of_N n) else n.
Definition sign (w n : N) : list N := if top w n then [45] else [].

(** the digits of [to_bit_str_signed]: one less than the width, but a whole word
    more if that makes the last word empty (C23) *)
Definition signed_bits (w : N) : N := if w mod 64 =? 1 then w + 63 else w - 1.

Definition look_result (l : look) (w n : N) : option answer :=
  match l with
  | LWidth => Some (ANum w)
  | LIsZero => Some (ABool (n =? 0))
  | LIsTru => Some (ABool ((w =? 1) && (n =? 1)))
  | LIsFals => Some (ABool ((w =? 1) && (n =? 0)))
  | LIsNegative => if w =? 0 then None else Some (ABool (top w n))
  | LIsBitSet pos => if 64 * places w <=? pos then None else Some (ABool (N.testbit n pos))
  | LBool => Some (AOptBool (if w =? 1 then Some (N.testbit n 0) else None))
  | LU64 => Some (AOptNum (if n <? 2 ^ 64 then Some n else None))
  | LI64 => Some (AOptInt
      (if w =? 0 then Some 0%Z
       else if w <=? 64 then Some (if top w n then signed w (n mod 2 ^ w) else signed 64 n)
       (* the whole storage taken as one signed number *)
       else i64_result (signed (64 * places w) n)))
  | LBigInt => Some (AInt
      (if w =? 0 then 0%Z else if top w n then signed w (n mod 2 ^ w) else Z.of_N n))
  | LBigUint => Some (ANum n)
  | LBitStr => Some (AText (digits 1 (N.to_nat w) n))
  | LBitStrSigned =>
      if w =? 0 then None
      (* no digits and no sign *)
      else if w =? 1 then Some (AText [])
      else Some (AText (sign w n ++ digits 1 (N.to_nat (signed_bits w)) (shown w n)))
  | LHexStr => Some (AText (digits 4 (N.to_nat ((w + 3) / 4)) n))
  | LHexStrSigned =>
      if w =? 0 then None
      else if w =? 1 then Some (AText [])
      else Some (AText (sign w n ++ digits 4 (N.to_nat ((w - 1 + 3) / 4)) (shown w n)))
  | LDecStr => if (2 ^ 128 <=? n) || (2 ^ 32 <=? w * 3) then None else Some (AText (decimal n))
  | LBytes => Some (AText (low_bytes (N.to_nat ((w + 7) / 8)) n))
  | LFixed f =>
      if (w <? f) || (64 <=? f) then None
      else Some (ARatio (if n <? 2 ^ 64 then Some (inject_Z (Z.of_N n) / inject_Z (2 ^ Z.of_N f))%Q
                         else None))
  | LFixedSigned f =>
      if (w =? 0) || (w <? f) then None
      else if top w n && (64 <? w) then Some (ARatio None)
      else if 64 <=? f then None
      else Some (ARatio (if shown w n <? 2 ^ 64
        then Some (inject_Z (if top w n then - Z.of_N (shown w n) else Z.of_N n) / inject_Z (2 ^ Z.of_N f))%Q
        else None))
  end.

(** fractions are compared by their value *)
Definition same_answer (x y : answer) : Prop :=
  match x, y with
  | ARatio (Some p), ARatio (Some q) => (p == q)%Q
  | _, _ => x = y
  end.

Definition tells (r : res answer) (y : answer) : Prop := exists x, r = Ok x /\ same_answer x y.
