(** * DirtySpec: bit-vectors with unused bits set (C76).

    The last word of a bit-vector has bits beyond the width unless the width is a
    multiple of 64.  Some calls set them (C06, C26, C27, C52, C57, C66, C74).  This file names
    what the other calls are measured against. *)

From Verif Require Import Base Bv Spec CallSpec PanicSpec MixedSpec.

(** a [w]-bit value in its full storage, which holds the number [n]; the unused
    bits of the last word may be set *)
Definition stores (v : bv) (w n : N) : Prop := well_shaped v /\ width v = w /\ uval v = n.

(** the call returns such a value *)
Definition holds (r : res bv) (w n : N) : Prop := exists v, r = Ok v /\ stores v w n.

(** the same value without the unused bits *)
Definition cleaned (v : bv) : bv := bv_of (width v) (uval v mod 2 ^ width v).

(** The calls for which unused bits in an operand make no difference. *)
Definition ignores (c : call) : Prop :=
  match c with
  | KBin (BAdd | BSub | BMul) a b => width a = width b
  | KNot _ | KNegate _ | KMask _ | KClear _ | KAssignOnes _ | KAssignU64 _ _ | KAssignI64 _ _ => True
  | KSlice a msb lsb => lsb <= msb /\ msb < width a
  | _ => False
  end.

Definition clean_call (c : call) : call :=
  match c with
  | KBin op a b => KBin op (cleaned a) (cleaned b)
  | KNot a => KNot (cleaned a) | KNegate a => KNegate (cleaned a)
  | KMask a => KMask (cleaned a) | KClear a => KClear (cleaned a)
  | KAssignOnes a => KAssignOnes (cleaned a)
  | KAssignU64 a n => KAssignU64 (cleaned a) n | KAssignI64 a z => KAssignI64 (cleaned a) z
  | KSlice a msb lsb => KSlice (cleaned a) msb lsb
  | _ => c
  end.

(** What the comparisons of two [w]-bit values that store [n] and [k] answer: the
    whole stored numbers are compared, the sign is that of bit [w - 1]. *)
Definition stored_signed (strict : bool) (w n k : N) : bool :=
  match N.testbit n (w - 1), N.testbit k (w - 1) with
  | true, false => false
  | false, true => true
  | _, _ => if strict then k <? n else k <=? n
  end.

Definition stored_test (t : test) (w n k : N) : bool :=
  match t with
  | TEqual | TEqOwned | TEqRef => n =? k
  | TNotEqual => negb (n =? k)
  | TGreater => k <? n
  | TLess => n <? k
  (* above 64 bits strict, see C14 *)
  | TGreaterEqual => if w <=? 64 then k <=? n else k <? n
  | TLessEqual => if w <=? 64 then n <=? k else n <? k
  | TGreaterSigned => stored_signed true w n k
  | TLessSigned => stored_signed true w k n
  | TGreaterEqualSigned => stored_signed false w n k
  | TLessEqualSigned => stored_signed false w k n
  end.
