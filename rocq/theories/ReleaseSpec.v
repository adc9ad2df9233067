(** * ReleaseSpec: which calls panic in a release build (C75).

    Release builds have no debug assertions and no overflow checks; what remains
    are the checks of indices and slices.  [rejects_release] is the counterpart of
    [rejects] in PanicSpec.v. *)

From Verif Require Import Base Bv Spec CallSpec PanicSpec MixedSpec.

Definition rejects_release (c : call) : Prop :=
  match c with
  (* never *)
  | KZero _ | KFromBool _ | KTru | KFals | KFromBitStr _ | KFromHexStr _ | KFromBigUint _ _ | KClear _
  | KOfBigUint _ => False
  (* no bits at all *)
  | KOnes w | KFromU64 _ w | KFromI64 _ w => w = 0
  | KNot a | KNegate a | KMask a | KAssignOnes a | KAssignU64 a _ | KAssignI64 a _ => width a = 0
  (* as in a debug build *)
  | KFromBytes _ _ | KFromBigInt _ _ | KFromStr _ _ _ | KAssignStr _ _ _ | KSetBit _ _
  | KClearBit _ _ => rejects c
  (* the width wraps around to 0 *)
  | KOfBigInt z => (z < 0)%Z /\ (N.size (Z.abs_N z) + 1) mod 2 ^ 32 = 0
  (* an operand without the words that are looked at *)
  | KBin (BAnd | BOr | BXor) a b => 0 < width a <= 64 /\ width b = 0
  | KBin (BAdd | BSub) a b => width a = 0 \/ (width a <= 64 /\ width b = 0)
  | KBin BMul a b => width a = 0 \/ 64 < width a \/ width b = 0
  | KBin (BShl | BShr) a b => width b = 0
  | KBin BAshr a b => width a = 0 \/ width b = 0
  | KAssign a b => places (width a) <> places (width b)
  (* the width of the result wraps around: none left, or not enough words left *)
  | KBin BConcat a b =>
      let out := (width a + width b) mod 2 ^ 32 in
      out = 0 \/ (out <= 64 /\ (width a = 0 \/ width b = 0))
      \/ (64 < out /\ width b mod 64 <> 0 /\ places out < places (width b))
  | KZeroExtend a k =>
      let out := (width a + k) mod 2 ^ 32 in
      out = 0 \/ (out <= 64 /\ width a = 0) \/ (64 < out /\ places out < places (width a))
  | KSignExtend a k =>
      let out := (width a + k) mod 2 ^ 32 in
      out = 0 \/ width a = 0 \/ (64 < out /\ places out < places (width a))
  (* beyond the last word; reversed by one bit, or beyond the first bit of the
     next word; all 2^32 bits *)
  | KSlice a msb lsb =>
      64 * places (width a) <= msb \/ lsb = msb + 1 \/ 64 * (msb / 64 + 1) < lsb
      \/ (msb = 2 ^ 32 - 1 /\ lsb = 0)
  end.

Definition rejects_question_release (q : question) : Prop :=
  match q with
  | QTest (TEqual | TNotEqual | TEqOwned | TEqRef) a b => False
  | QTest (TGreater | TGreaterEqual) a b => 0 < width a <= 64 /\ width b = 0
  | QTest (TLess | TLessEqual) a b => 0 < width b <= 64 /\ width a = 0
  | QTest (TGreaterSigned | TGreaterEqualSigned | TLessSigned | TLessEqualSigned) a b =>
      width a = 0 \/ width b = 0
  | QIsTru _ | QIsFals _ | QToBool _ | QToI64 _ | QToBigInt _ | QToBigUint _ | QBitStr _ | QHexStr _
  | QFixed _ _ => False
  | QIsNegative a | QBitStrSigned a | QHexStrSigned a | QFixedSigned a _ => width a = 0
  | QIsBitSet a pos => 64 * places (width a) <= pos
  | QDecStr a => 2 ^ 128 <= uval a
  end.
