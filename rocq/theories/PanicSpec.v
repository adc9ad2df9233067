(** * PanicSpec: which calls panic in a debug build.

    [rejects c] and [rejects_question q] list, for every call on valid values,
    exactly the arguments for which a debug build panics.  Everything else has
    to return. *)

From Verif Require Import Base Strings Bv Spec TextSpec IoSpec CallSpec.

(** ** The calls that look at bit-vectors without making one *)

Inductive test := TEqual | TNotEqual
  | TGreater | TGreaterEqual | TLess | TLessEqual
  | TGreaterSigned | TGreaterEqualSigned | TLessSigned | TLessEqualSigned
  | TEqOwned | TEqRef.

Inductive question :=
| QTest (t : test) (a b : bv)
| QIsTru (a : bv) | QIsFals (a : bv) | QIsNegative (a : bv) | QIsBitSet (a : bv) (pos : N)
| QToBool (a : bv) | QToI64 (a : bv) | QToBigInt (a : bv) | QToBigUint (a : bv)
| QBitStr (a : bv) | QBitStrSigned (a : bv) | QHexStr (a : bv) | QHexStrSigned (a : bv)
| QDecStr (a : bv)
| QFixed (a : bv) (fraction_width : N) | QFixedSigned (a : bv) (fraction_width : N).

Definition run_test (t : test) : mode -> bv -> bv -> res bool :=
  match t with
  | TEqual => bv_is_equal | TNotEqual => bv_is_not_equal
  | TGreater => bv_is_greater | TGreaterEqual => bv_is_greater_or_equal
  | TLess => bv_is_less | TLessEqual => bv_is_less_or_equal
  | TGreaterSigned => bv_is_greater_signed | TGreaterEqualSigned => bv_is_greater_or_equal_signed
  | TLessSigned => bv_is_less_signed | TLessEqualSigned => bv_is_less_or_equal_signed
  | TEqOwned => bv_eq | TEqRef => bvref_eq
  end.

(** The call without its answer. *)
Definition ask (m : mode) (q : question) : res unit :=
  let done {A} (r : res A) := let* _ := r in Ok tt in
  match q with
  | QTest t a b => done (run_test t m a b)
  | QIsTru a => done (bv_is_tru a) | QIsFals a => done (bv_is_fals a)
  | QIsNegative a => done (bv_is_negative m a) | QIsBitSet a pos => done (bv_is_bit_set a pos)
  | QToBool a => done (bv_to_bool a) | QToI64 a => done (bv_to_i64 m a)
  | QToBigInt a => done (bv_to_big_int m a) | QToBigUint a => done (bv_to_big_uint a)
  | QBitStr a => done (bv_to_bit_str a) | QBitStrSigned a => done (bv_to_bit_str_signed m a)
  | QHexStr a => done (bv_to_hex_str m a) | QHexStrSigned a => done (bv_to_hex_str_signed m a)
  | QDecStr a => done (bv_to_dec_str m a)
  | QFixed a f => done (bv_to_unsigned_fixed_point m a f)
  | QFixedSigned a f => done (bv_to_signed_fixed_point m a f)
  end.

Definition asked (q : question) : list bv :=
  match q with
  | QTest _ a b => [a; b]
  | QIsTru a | QIsFals a | QIsNegative a | QIsBitSet a _ | QToBool a | QToI64 a | QToBigInt a
  | QToBigUint a | QBitStr a | QBitStrSigned a | QHexStr a | QHexStrSigned a | QDecStr a
  | QFixed a _ | QFixedSigned a _ => [a]
  end.

(** ** Texts *)

(** Parsing panics for: an unsupported radix, whatever the digits; above 128
    bits, also for more hexadecimal digits than fit the words, unless one of
    the digits of the incomplete leading group of sixteen is bad.  A text
    without any character after its sign never panics. *)
Definition text_rejected (s : list N) (radix w : N) : Prop :=
  0 < w /\ after_minus s <> []
  /\ ((w <= 128 /\ ~ (2 <= radix <= 36))
      \/ (128 < w /\ digits_of s <> [] /\ radix <> 2 /\ radix <> 16)
      \/ (128 < w /\ radix = 16 /\ 16 * ((w + 63) / 64) < len (digits_of s)
          /\ Forall hex_digit (firstn (N.to_nat ((len (digits_of s) - 1) mod 16 + 1)) (digits_of s)))).

(** ** The panics *)

Definition rejects (c : call) : Prop :=
  match c with
  (* never *)
  | KZero _ | KFromBool _ | KTru | KFals | KFromBitStr _ | KFromHexStr _ | KFromBigUint _ _ | KClear _ => False
  (* a value that does not fit, or no bits at all *)
  | KOnes w => w = 0
  | KFromU64 n w => w = 0 \/ 2 ^ w <= n
  | KFromI64 z w => w = 0 \/ ~ fits w z
  | KFromBytes bytes w => 0 < w /\ 8 * ((w + 63) / 64) < len bytes
  | KFromBigInt z w => w = 0 /\ (z < 0)%Z
  | KFromStr s r w => text_rejected s r w
  (* a number of more than 2^32 - 64 bits *)
  | KOfBigUint n => 2 ^ 32 - 64 < N.size n
  | KOfBigInt z => 2 ^ 32 - 64 < N.size (Z.abs_N z)
  (* operands of different or no width *)
  | KBin (BAnd | BOr | BXor) a b => width a <> width b
  | KBin (BAdd | BSub | BShl | BShr | BAshr) a b => width a <> width b \/ width a = 0
  | KBin BMul a b => width a <> width b \/ width a = 0 \/ 64 < width a
  | KNot a | KNegate a | KMask a | KAssignOnes a => width a = 0
  | KAssign a b => width a <> width b
  | KAssignU64 a n => width a = 0 \/ 2 ^ width a <= n
  | KAssignI64 a z => width a = 0 \/ ~ fits (width a) z
  | KAssignStr a s r => text_rejected s r (width a)
  (* a result of 2^32 bits or more; an operand without bits and at most 64 bits
     in the result *)
  | KBin BConcat a b => 2 ^ 32 <= width a + width b
      \/ ((width a = 0 \/ width b = 0) /\ width a + width b <= 64)
  | KZeroExtend a k => 2 ^ 32 <= width a + k \/ (width a = 0 /\ k <= 64)
  | KSignExtend a k => 2 ^ 32 <= width a + k \/ width a = 0
  (* a range beyond the width: the check lets [msb = width] pass, which then
     panics only if it is beyond the last word (or has 2^32 bits) *)
  | KSlice a msb lsb => width a < msb \/ msb < lsb
      \/ (msb = width a /\ (width a mod 64 = 0 \/ msb - lsb + 1 = 2 ^ 32))
  (* a bit beyond the last word *)
  | KSetBit a pos | KClearBit a pos => 64 * ((width a + 63) / 64) <= pos
  end.

Definition rejects_question (q : question) : Prop :=
  match q with
  | QTest (TEqOwned | TEqRef) a b => False
  | QTest (TGreaterSigned | TGreaterEqualSigned | TLessSigned | TLessEqualSigned) a b =>
      width a <> width b \/ width a = 0
  | QTest _ a b => width a <> width b
  | QIsTru _ | QIsFals _ | QToBool _ | QToI64 _ | QToBigInt _ | QToBigUint _ | QBitStr _ | QHexStr _ => False
  | QIsNegative a | QBitStrSigned a | QHexStrSigned a => width a = 0
  | QIsBitSet a pos => 64 * ((width a + 63) / 64) <= pos
  | QDecStr a => 2 ^ 128 <= uval a \/ 2 ^ 32 <= width a * 3
  | QFixed a f => width a < f \/ 64 <= f
  | QFixedSigned a f => width a = 0 \/ width a < f
      \/ (64 <= f /\ (width a <= 64 \/ (0 <= signed (width a) (uval a))%Z))
  end.

(** Numbers of 2^38 bits (32 GiB) and more are left out: their number of words
    does not fit 32 bits. *)
Definition in_memory (c : call) : Prop :=
  match c with
  | KOfBigUint n => N.size n < 2 ^ 38 - 64
  | KOfBigInt z => N.size (Z.abs_N z) < 2 ^ 38 - 64
  | _ => True
  end.
