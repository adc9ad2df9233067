(** * InterpSpec: a reference interpreter that works on plain numbers (C77).

    A program is a tree of calls.  [execute m p] performs it with the modelled
    code.  [meaning p] computes, with arithmetic on pairs of a width and a number
    only, what a debug build makes of it: whatever the arguments are. *)

From Verif Require Import Base Strings Bv Spec TextSpec IoSpec CallSpec PanicSpec ParseSpec MixedSpec DirtySpec.

(** ** Programs *)

(** the calls on one bit-vector *)
Inductive unary :=
| UNot | UNegate | USlice (msb lsb : N) | UZeroExtend (k : N) | USignExtend (k : N)
| UMask | UClear | UOnes | UAssignU64 (n : N) | UAssignI64 (z : Z)
| UAssignStr (s : list N) (radix : N) | USetBit (pos : N) | UClearBit (pos : N).

Definition unary_call (u : unary) (a : bv) : call :=
  match u with
  | UNot => KNot a | UNegate => KNegate a | USlice msb lsb => KSlice a msb lsb
  | UZeroExtend k => KZeroExtend a k | USignExtend k => KSignExtend a k
  | UMask => KMask a | UClear => KClear a | UOnes => KAssignOnes a
  | UAssignU64 n => KAssignU64 a n | UAssignI64 z => KAssignI64 a z
  | UAssignStr s r => KAssignStr a s r
  | USetBit pos => KSetBit a pos | UClearBit pos => KClearBit a pos
  end.

Inductive program :=
| Fresh (c : call)                        (* a constructor *)
| Un (u : unary) (p : program)
| Bin (op : binop) (p q : program)
| Assign (p q : program).                 (* [p.assign(q)] *)

(** [Ok None] is a parse error, which ends the program, as does a panic. *)
Fixpoint execute (m : mode) (p : program) : res (option bv) :=
  let on r k := let* v := r in match v with Some a => k a | None => Ok None end in
  match p with
  | Fresh c => run m c
  | Un u p => on (execute m p) (fun a => run m (unary_call u a))
  | Bin op p q => on (execute m p) (fun a => on (execute m q) (fun b => run m (KBin op a b)))
  | Assign p q => on (execute m p) (fun a => on (execute m q) (fun b => run m (KAssign a b)))
  end.

(** The arguments are in the range of their Rust types (see [in_range]). *)
Definition fresh_range (c : call) : Prop :=
  operands c = [] /\ in_range c /\ in_memory c
  /\ match c with KFromBitStr s | KFromHexStr s => len s + 1 < 2 ^ 30 | _ => True end.

Definition unary_range (u : unary) : Prop :=
  match u with
  | USlice msb lsb => msb < 2 ^ 32 /\ lsb < 2 ^ 32
  | UZeroExtend k | USignExtend k => k < 2 ^ 32
  | UAssignU64 n => n < 2 ^ 64
  | UAssignI64 z => fits 64 z
  | UAssignStr s r => len s < 2 ^ 30 /\ r < 2 ^ 32
  | USetBit pos | UClearBit pos => pos < 2 ^ 32
  | _ => True
  end.

Fixpoint typed (p : program) : Prop :=
  match p with
  | Fresh c => fresh_range c
  | Un u p => unary_range u /\ typed p
  | Bin _ p q | Assign p q => typed p /\ typed q
  end.

(** ** The interpreter *)

Inductive outcome :=
| Gives (w n : N)   (* a [w]-bit value whose storage holds [n] *)
| Errs              (* a parse error *)
| Stops.            (* a panic *)

Definition fitsb (w : N) (z : Z) : bool :=
  (- 2 ^ (Z.of_N w - 1) <=? z)%Z && (z <? 2 ^ (Z.of_N w - 1))%Z.

Definition read_fresh (w : N) (r : reading) : outcome :=
  match r with Reads n => Gives w n | Fails _ _ => Errs | Breaks => Stops end.

Definition fresh (c : call) : outcome :=
  match c with
  | KZero w => Gives w 0
  | KOnes w => if w =? 0 then Stops else Gives w (2 ^ w - 1)
  | KFromU64 n w => if (w =? 0) || (2 ^ w <=? n) then Stops else Gives w n
  | KFromI64 z w => if (w =? 0) || negb (fitsb w z) then Stops else Gives w (wrap w z)
  | KFromBool b => Gives 1 (if b then 1 else 0)
  | KTru => Gives 1 1
  | KFals => Gives 1 0
  | KFromStr s r w => read_fresh w (reading_of r w 0 s)
  | KFromBitStr s => read_fresh (text_width 1 s) (reading_of 2 (text_width 1 s) 0 s)
  | KFromHexStr s => read_fresh (text_width 4 s) (reading_of 16 (text_width 4 s) 0 s)
  | KFromBytes bytes w =>
      if (0 <? w) && (8 * places w <? len bytes) then Stops else Gives w (bytes_val bytes mod 2 ^ w)
  | KFromBigInt z w => if (w =? 0) && (z <? 0)%Z then Stops else Gives w (wrap w z)
  | KFromBigUint n w => Gives w (n mod 2 ^ w)
  | KOfBigInt z =>
      let bits := N.size (Z.abs_N z) in
      if 2 ^ 32 - 64 <? bits then Stops else Gives (bits + 1) (wrap (bits + 1) z)
  | KOfBigUint n => if 2 ^ 32 - 64 <? N.size n then Stops else Gives (N.size n) n
  | _ => Stops
  end.

Definition unary_result (u : unary) (w n : N) : outcome :=
  match u with
  | UNot => if w =? 0 then Stops else Gives w (2 ^ w - 1 - n mod 2 ^ w)
  | UNegate => if w =? 0 then Stops else Gives w (wrap w (- Z.of_N n))
  | USlice msb lsb =>
      (* [msb = w] passes the check of the code *)
      if (w <? msb) || (msb <? lsb)
         || ((msb =? w) && ((w mod 64 =? 0) || (msb - lsb + 1 =? 2 ^ 32)))
      then Stops
      else Gives (msb - lsb + 1) ((n / 2 ^ lsb) mod 2 ^ (msb - lsb + 1))
  | UZeroExtend k =>
      if (2 ^ 32 <=? w + k) || ((w =? 0) && (k <=? 64)) then Stops else Gives (w + k) n
  | USignExtend k =>
      if (2 ^ 32 <=? w + k) || (w =? 0) then Stops
      else Gives (w + k) (if N.testbit n (w - 1) then wrap (w + k) (signed w (n mod 2 ^ w)) else n)
  | UMask => if w =? 0 then Stops else Gives w (n mod 2 ^ w)
  | UClear => Gives w 0
  | UOnes => if w =? 0 then Stops else Gives w (2 ^ w - 1)
  | UAssignU64 k => if (w =? 0) || (2 ^ w <=? k) then Stops else Gives w k
  | UAssignI64 z => if (w =? 0) || negb (fitsb w z) then Stops else Gives w (wrap w z)
  | UAssignStr s r =>
      (* an error is reported, but the target is left as it is by then *)
      match reading_of r w n s with Reads k | Fails _ k => Gives w k | Breaks => Stops end
  | USetBit pos => if 64 * places w <=? pos then Stops else Gives w (N.setbit n pos)
  | UClearBit pos => if 64 * places w <=? pos then Stops else Gives w (N.clearbit n pos)
  end.

Definition binary_result (op : binop) (w n w' k : N) : outcome :=
  match op with
  | BConcat =>
      if (2 ^ 32 <=? w + w') || (((w =? 0) || (w' =? 0)) && (w + w' <=? 64)) then Stops
      else Gives (w + w') (N.lor (n * 2 ^ w') k mod 2 ^ (64 * places (w + w')))
  | BAnd => if w =? w' then Gives w (N.land n k) else Stops
  | BOr => if w =? w' then Gives w (N.lor n k) else Stops
  | BXor => if w =? w' then Gives w (N.lxor n k) else Stops
  | BAdd => if (w =? w') && (0 <? w) then Gives w ((n + k) mod 2 ^ w) else Stops
  | BSub => if (w =? w') && (0 <? w) then Gives w (wrap w (Z.of_N n - Z.of_N k)) else Stops
  | BMul => if (w =? w') && (0 <? w) && (w <=? 64) then Gives w ((n * k) mod 2 ^ w) else Stops
  | BShl =>
      if (w =? w') && (0 <? w) then
        Gives w (if w <=? k then 0
                 else if k mod 64 =? 0 then (n * 2 ^ k) mod 2 ^ (64 * places w)
                 else (n * 2 ^ k) mod 2 ^ w)
      else Stops
  | BShr => if (w =? w') && (0 <? w) then Gives w (n mod 2 ^ w / 2 ^ k) else Stops
  | BAshr =>
      if (w =? w') && (0 <? w)
      then Gives w (wrap w (signed w (n mod 2 ^ w) / 2 ^ Z.of_N k)) else Stops
  end.

Fixpoint meaning (p : program) : outcome :=
  let on o k := match o with Gives w n => k w n | o => o end in
  match p with
  | Fresh c => fresh c
  | Un u p => on (meaning p) (unary_result u)
  | Bin op p q => on (meaning p) (fun w n => on (meaning q) (binary_result op w n))
  | Assign p q =>
      on (meaning p) (fun w n => on (meaning q) (fun w' k => if w =? w' then Gives w k else Stops))
  end.

(** What the code has to do for an outcome. *)
Definition agrees (r : res (option bv)) (o : outcome) : Prop :=
  match o with
  | Gives w n => exists v, r = Ok (Some v) /\ stores v w n
  | Errs => r = Ok None
  | Stops => panics r
  end.

(** Texts and big integers of a size that fits a machine's memory. *)
Definition small (c : call) : Prop :=
  in_memory c /\ match c with KFromBitStr s | KFromHexStr s => len s + 1 < 2 ^ 30 | _ => True end.

(** ** A comparison at the end of two programs *)

Definition test_result (t : test) (w n w' k : N) : option bool :=
  match t with
  | TEqOwned | TEqRef => Some ((w =? w') && (n =? k))
  | TEqual | TNotEqual | TGreater | TLess => if w =? w' then Some (stored_test t w n k) else None
  | TGreaterEqual | TLessEqual =>
      if w =? w' then Some ((0 <? w) && stored_test t w n k) else None
  | TGreaterSigned | TGreaterEqualSigned | TLessSigned | TLessEqualSigned =>
      if (w =? w') && (0 <? w) then Some (stored_test t w n k) else None
  end.
