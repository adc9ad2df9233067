(** * CallSpec: every call of the public API that makes or changes a bit-vector.

    [run m c] performs the call.  [made m ok v] says that [v] came out of a finite
    tree of calls in build [m], each with any arguments of the right Rust types,
    whether or not they make sense; [ok] says which calls may be used. *)

From Verif Require Import Base Strings Bv Spec TextSpec IoSpec.

Inductive binop := BAdd | BSub | BMul | BAnd | BOr | BXor | BShl | BShr | BAshr | BConcat.

Inductive call :=
(* constructors *)
| KZero (w : N) | KOnes (w : N) | KFromU64 (n w : N) | KFromI64 (z : Z) (w : N)
| KFromBool (b : bool) | KTru | KFals
| KFromStr (s : list N) (radix w : N) | KFromBitStr (s : list N) | KFromHexStr (s : list N)
| KFromBytes (bytes : list N) (w : N)
| KFromBigInt (z : Z) (w : N) | KFromBigUint (n w : N) | KOfBigInt (z : Z) | KOfBigUint (n : N)
(* operations *)
| KBin (op : binop) (a b : bv) | KNot (a : bv) | KNegate (a : bv)
| KSlice (a : bv) (msb lsb : N) | KZeroExtend (a : bv) (k : N) | KSignExtend (a : bv) (k : N)
(* updates in place *)
| KAssign (a b : bv) | KMask (a : bv) | KClear (a : bv) | KAssignOnes (a : bv)
| KAssignU64 (a : bv) (n : N) | KAssignI64 (a : bv) (z : Z)
| KAssignStr (a : bv) (s : list N) (radix : N)
| KSetBit (a : bv) (pos : N) | KClearBit (a : bv) (pos : N).

Definition run_bin (op : binop) : mode -> bv -> bv -> res bv :=
  match op with
  | BAdd => bv_add | BSub => bv_sub | BMul => bv_mul
  | BAnd => bv_and | BOr => bv_or | BXor => bv_xor
  | BShl => bv_shift_left | BShr => bv_shift_right | BAshr => bv_arithmetic_shift_right
  | BConcat => bv_concat
  end.

(** the value of a parse, [None] for an error *)
Definition parsed_value (p : parsed) : option bv :=
  match p with Parsed v => Some v | ParseErr _ => None end.

Definition run (m : mode) (c : call) : res (option bv) :=
  let some r := let* v := r in Ok (Some v) in
  let text r := let* p := r in Ok (parsed_value p) in
  match c with
  | KZero w => Ok (Some (bv_zero w))
  | KOnes w => some (bv_ones m w)
  | KFromU64 n w => some (bv_from_u64 m n w)
  | KFromI64 z w => some (bv_from_i64 m z w)
  | KFromBool b => some (bv_from_bool m b)
  | KTru => some (bv_tru m)
  | KFals => some (bv_fals m)
  | KFromStr s r w => text (bv_from_str_radix m s r w)
  | KFromBitStr s => text (bv_from_bit_str m s)
  | KFromHexStr s => text (bv_from_hex_str m s)
  | KFromBytes bytes w => some (bv_from_bytes_le m bytes w)
  | KFromBigInt z w => some (bv_from_big_int m z w)
  | KFromBigUint n w => some (bv_from_big_uint m n w)
  | KOfBigInt z => some (bv_of_big_int m z)
  | KOfBigUint n => some (bv_of_big_uint m n)
  | KBin op a b => some (run_bin op m a b)
  | KNot a => some (bv_not m a)
  | KNegate a => some (bv_negate m a)
  | KSlice a msb lsb => some (bv_slice m a msb lsb)
  | KZeroExtend a k => some (bv_zero_extend m a k)
  | KSignExtend a k => some (bv_sign_extend m a k)
  | KAssign a b => some (bv_assign m a b)
  | KMask a => some (bv_mask_msb m a)
  | KClear a => Ok (Some (bv_clear a))
  | KAssignOnes a => some (bv_assign_ones m a)
  | KAssignU64 a n => some (bv_assign_from_u64 m a n)
  | KAssignI64 a z => some (bv_assign_from_i64 m a z)
  | KAssignStr a s r => let* (v, e) := bv_assign_from_str_radix m a s r in Ok (Some v)
  | KSetBit a pos => some (bv_set_bit a pos)
  | KClearBit a pos => some (bv_clear_bit a pos)
  end.

(** the bit-vectors a call is given *)
Definition operands (c : call) : list bv :=
  match c with
  | KBin _ a b | KAssign a b => [a; b]
  | KNot a | KNegate a | KSlice a _ _ | KZeroExtend a _ | KSignExtend a _ | KMask a | KClear a
  | KAssignOnes a | KAssignU64 a _ | KAssignI64 a _ | KAssignStr a _ _ | KSetBit a _
  | KClearBit a _ => [a]
  | _ => []
  end.

(** The other arguments are in the range of their Rust types: widths, positions
    and radices are u32, texts have less than 2^30 characters. *)
Definition in_range (c : call) : Prop :=
  match c with
  | KZero w | KOnes w | KFromBigInt _ w | KFromBigUint _ w => w < 2 ^ 32
  | KFromU64 n w => n < 2 ^ 64 /\ w < 2 ^ 32
  | KFromI64 z w => fits 64 z /\ w < 2 ^ 32
  | KFromStr s r w => len s < 2 ^ 30 /\ r < 2 ^ 32 /\ w < 2 ^ 32
  | KFromBitStr s | KFromHexStr s => len s < 2 ^ 30
  | KFromBytes bytes w => is_bytes bytes /\ w < 2 ^ 32
  | KSlice _ msb lsb => msb < 2 ^ 32 /\ lsb < 2 ^ 32
  | KZeroExtend _ k | KSignExtend _ k => k < 2 ^ 32
  | KAssignU64 _ n => n < 2 ^ 64
  | KAssignI64 _ z => fits 64 z
  | KAssignStr _ s r => len s < 2 ^ 30 /\ r < 2 ^ 32
  | KSetBit _ pos | KClearBit _ pos => pos < 2 ^ 32
  | _ => True
  end.

Inductive made (m : mode) (ok : call -> Prop) : bv -> Prop :=
| made_by c v : (forall a, In a (operands c) -> made m ok a) -> in_range c -> ok c ->
    run m c = Ok (Some v) -> made m ok v.

(** no restriction *)
Definition any_call (c : call) : Prop := True.

(** The stored words fit the width: as many as the width needs, each a u64.
    (Bits beyond the width may be set.) *)
Definition well_shaped (v : bv) : Prop :=
  width v < 2 ^ 32 /\ len (words v) = (width v + 63) / 64 /\ Forall (fun x => x < 2 ^ 64) (words v).

(** The text does not denote a number of [w] or more bits (C26). *)
Definition fits_text (s : list N) (radix w : N) : Prop :=
  forall z, signed_text radix s = Some z -> (z < 2 ^ Z.of_N w)%Z.

(** The calls that keep values valid: all but [set_bit] beyond the width, left
    shifts by a multiple of 64 bits in a width that is none, and parsing a
    number that does not fit.  (A failed [assign_from_str_radix] of more than 128
    bits leaves digits behind, see C27.) *)
Definition harmless (c : call) : Prop :=
  match c with
  | KSetBit a pos => pos < width a
  | KBin BShl a b => width a mod 64 = 0 \/ uval b mod 64 <> 0 \/ uval b = 0 \/ width a <= uval b
  | KFromStr s r w => fits_text s r w
  | KAssignStr a s r => fits_text s r (width a)
      /\ (width a <= 128 \/ exists v, bv_assign_from_str_radix Debug a s r = Ok (v, None))
  | _ => True
  end.

(** A call that makes an invalid value out of valid ones in a debug build. *)
Definition harmful (c : call) : Prop :=
  (forall a, In a (operands c) -> made Debug harmless a) /\ in_range c
  /\ exists v, run Debug c = Ok (Some v) /\ ~ wf v.
