(** * LoadSpec: bit-vectors of any shape, loaded from foreign data (C98).

    The derived [Deserialize] accepts any width below 2^32 together with any
    list of 64-bit words: too few, too many, or none.  This file says in terms
    of the width, the number of words and the stored number what the operations
    do with such values.  [None] stands for a panic. *)

From Verif Require Import Base Bv Spec CallSpec MixedSpec AnswerSpec.

(** what can come out of a file *)
Definition loaded (v : bv) : Prop :=
  width v < 2 ^ 32 /\ Forall (fun x => x < 2 ^ 64) (words v).

(** number of words it has *)
Definition count (v : bv) : N := len (words v).

(** a debug build compares widths and numbers of words *)
Definition admits (m : mode) (a b : bv) : bool :=
  match m with
  | Debug => (width a =? width b) && (count a =? count b)
  | Release => true
  end.

(** the bits an operation on two values looks at: those that both operands and
    the result have *)
Definition shared (a b : bv) : N := 64 * N.min (places (width a)) (N.min (count a) (count b)).
Definition cut (a b : bv) (n : N) : N := n mod 2 ^ shared a b.

(** an operand of one word is combined with the first word of the other, and
    with the first word of the result: both must exist *)
Definition lacking (a b : bv) : bool :=
  (count a =? 1) && ((count b =? 0) || (width a =? 0)).

Definition load_bitwise (op : N -> N -> N) (m : mode) (a b : bv) : option N :=
  if admits m a b && negb (lacking a b)
  then Some (op (cut a b (uval a)) (cut a b (uval b))) else None.

(** bits in use in the last word of a [w]-bit value *)
Definition last_bits (w : N) : N := (w - 1) mod 64 + 1.

(** An operation that ends by clearing the unused bits of the last word.  For an
    operand of one word it is done to the first word of the result, also where
    the result has more; a debug build notices. *)
Definition kept (v : bv) : N := if count v =? 1 then last_bits (width v) else width v.
Definition odd_mask (m : mode) (v : bv) : bool :=
  match m with Debug => (count v =? 1) && negb (places (width v) =? 1) | Release => false end.

Definition load_add (m : mode) (a b : bv) : option N :=
  if admits m a b && negb (lacking a b) && negb (width a =? 0) && negb (odd_mask m a)
  then Some ((cut a b (uval a) + cut a b (uval b)) mod 2 ^ shared a b mod 2 ^ kept a) else None.

Definition load_sub (m : mode) (a b : bv) : option N :=
  if admits m a b && negb (lacking a b) && negb (width a =? 0) && negb (odd_mask m a)
  then Some ((cut a b (uval a) + (2 ^ shared a b - cut a b (uval b)))
             mod 2 ^ shared a b mod 2 ^ kept a)
  else None.

Definition load_mul (m : mode) (a b : bv) : option N :=
  if admits m a b && negb (width a =? 0) && (width a <=? 64)
     && negb (count a =? 0) && negb (count b =? 0)
  then Some ((uval a * uval b) mod 2 ^ width a) else None.

Definition load_not (m : mode) (a : bv) : option N :=
  if (count a =? 0) || (width a =? 0) || odd_mask m a then None
  else let q := shared a a in Some ((2 ^ q - 1 - uval a mod 2 ^ q) mod 2 ^ kept a).

(** [negate] copies its operand, so the result must have as many words, unless
    it is a single one *)
Definition load_negate (m : mode) (a : bv) : option N :=
  if (count a =? 0) || (width a =? 0) || odd_mask m a
     || negb ((count a =? 1) || (count a =? places (width a))) then None
  else Some ((2 ^ (64 * count a) - uval a) mod 2 ^ kept a).

(** order by number: the most significant words are compared first, so values
    with different numbers of words are aligned at the top *)
Definition load_greater (strict : bool) (m : mode) (a b : bv) : option bool :=
  if admits m a b && negb ((count a =? 1) && (count b =? 0)) then
    let q := N.min (count a) (count b) in
    let x := uval a / 2 ^ (64 * (count a - q)) in
    let y := if count a =? 1 then uval b mod 2 ^ 64 else uval b / 2 ^ (64 * (count b - q)) in
    Some (if strict then y <? x else y <=? x)
  else None.

Definition load_equal (m : mode) (a b : bv) : option bool :=
  if admits m a b then
    let q := 64 * N.min (count a) (count b) in
    Some (uval a mod 2 ^ q =? uval b mod 2 ^ q)
  else None.

Definition load_slice (m : mode) (v : bv) (msb lsb : N) : option N :=
  if ((msb <=? width v) || match m with Debug => false | Release => true end)
     && (msb <? 64 * count v)
  then Some ((uval v / 2 ^ lsb) mod 2 ^ (msb - lsb + 1)) else None.

(** [by_] bits more; a result of at most one word takes only the first word *)
Definition load_zero_extend (v : bv) (by_ : N) : option N :=
  let w := width v + by_ in
  if w <=? 64 then
    if (w =? 0) || (count v =? 0) then None else Some (uval v mod 2 ^ 64)
  else if places w <? count v then None else Some (uval v).

(** The call returns a value with the width and the number of words of [v] and
    this number in them. *)
Definition keeps_words (r : res bv) (v : bv) (o : option N) : Prop :=
  match o with
  | None => panics r
  | Some n => exists v', r = Ok v' /\ loaded v' /\ width v' = width v
                /\ count v' = count v /\ uval v' = n
  end.

(** ** Shifts, signed comparisons, sign extension *)

(** the amount: an operand of one word is shifted by the first word of the other *)
Definition amount (a b : bv) : N := if count a =? 1 then uval b mod 2 ^ 64 else uval b.

Definition shiftable (m : mode) (a b : bv) : bool :=
  admits m a b && negb (lacking a b) && negb (count b =? 0).

(** the words that come out: those of the result that the shifted operand reaches *)
Definition load_shift_left (m : mode) (a b : bv) : option N :=
  if shiftable m a b then
    let y := amount a b in
    let q := 64 * N.min (if count a =? 1 then 1 else places (width a)) (y / 64 + count a) in
    if width a <=? y then Some 0
    else if y mod 64 =? 0 then Some ((uval a * 2 ^ y) mod 2 ^ q)
    else if odd_mask m a then None
    else Some ((uval a * 2 ^ y) mod 2 ^ q mod 2 ^ kept a)
  else None.

(** a right shift reads all the bits of the width *)
Definition load_shift_right (m : mode) (a b : bv) : option N :=
  if shiftable m a b then
    let y := amount a b in
    if width a <=? y then Some 0
    else if count a <? places (width a) then None
    else Some ((uval a / 2 ^ y) mod 2 ^ (width a - y))
  else None.

(** where the sign of a [w]-bit value is looked for in [c] words *)
Definition sign_bit (w c : N) : N := 64 * (c - 1) + (w + 63) mod 64.
Definition signless (m : mode) (w c : N) : bool :=
  (c =? 0) || ((w =? 0) && match m with Debug => true | Release => false end).

Definition load_arith_shift_right (m : mode) (a b : bv) : option N :=
  let w := width a in
  let y := amount a b in
  let neg := N.testbit (uval a) (sign_bit w (count a)) in
  match load_shift_right m a b with
  | None => None
  | Some n =>
      if signless m w (count a) then None
      else if neg then
        if w <=? y then
          if (w =? 0) || odd_mask m a then None else Some (2 ^ kept a - 1)
        else Some (if 0 <? y then n + (2 ^ w - 2 ^ (w - y)) else n)
      else Some n
  end.

Definition load_greater_signed (strict : bool) (m : mode) (a b : bv) : option bool :=
  if admits m a b && negb (signless m (width a) (count a)) && negb (count b =? 0) then
    match N.testbit (uval a) (sign_bit (width a) (count a)),
          N.testbit (uval b) (sign_bit (width a) (if count a =? 1 then 1 else count b)) with
    | true, false => Some false
    | false, true => Some true
    | _, _ => load_greater strict m a b
    end
  else None.

Definition load_sign_extend (m : mode) (v : bv) (by_ : N) : option N :=
  let w := width v + by_ in
  let c := if w <=? 64 then 1 else count v in
  let n := if w <=? 64 then uval v mod 2 ^ 64 else uval v in
  if signless m (width v) (count v) || (w =? 0) || (places w <? c) then None
  else if N.testbit n (sign_bit (width v) c) then
    let e := sign_bit (width v) c + 1 in
    Some ((n mod 2 ^ e + (2 ^ (64 * places w) - 2 ^ e)) mod 2 ^ w)
  else Some n.

(** ** Concatenation: the upper half goes where the lower half's width ends in its
    last stored word; nothing is cut but what does not fit the words of the result *)
Definition load_concat (a b : bv) : option N :=
  let w := width a + width b in
  let r := width b mod 64 in
  let small := w <=? 64 in
  let c := if small then 1 else count b in
  let x := if small then uval a mod 2 ^ 64 else uval a in
  let y := if small then uval b mod 2 ^ 64 else uval b in
  let e := if r =? 0 then 64 * c else 64 * (c - 1) + r in
  if (w =? 0) || (small && ((count a =? 0) || (count b =? 0)))
     || ((0 <? r) && ((c =? 0) || (places w <? c)))
  then None
  else Some (N.lor (x * 2 ^ e) y mod 2 ^ (64 * places w)).

(** ** Numbers and texts read from a loaded value *)

Definition gives {A} (r : res A) (o : option A) : Prop :=
  match o with None => panics r | Some x => r = Ok x end.

(** the bits that are shown: all stored words, the last one up to where the width ends in it *)
Definition shown_bits (w c : N) : N := sign_bit w c + 1.

Definition load_bit_str (v : bv) : option (list N) :=
  if width v =? 0 then Some []
  else if count v =? 0 then None
  else Some (digits 1 (N.to_nat (shown_bits (width v) (count v))) (uval v)).

Definition odd_count (m : mode) (v : bv) : bool :=
  match m with Debug => negb (places (width v) =? count v) | Release => false end.

Definition load_hex_str (m : mode) (v : bv) : option (list N) :=
  if odd_count m v then None
  else if width v =? 0 then Some []
  else if count v =? 0 then None
  else Some (digits 4 (N.to_nat ((shown_bits (width v) (count v) + 3) / 4)) (uval v)).

Definition load_big_int (m : mode) (v : bv) : option Z :=
  let e := shown_bits (width v) (count v) in
  if width v =? 0 then Some 0%Z
  else if count v =? 0 then None
  else if N.testbit (uval v) (e - 1) then
    if odd_count m v then None else Some (signed e (uval v mod 2 ^ e))
  else Some (Z.of_N (uval v)).

(** up to 64 bits the first word with the sign of the last; above, the number in
    all stored words, but nothing for a single word *)
Definition load_i64 (m : mode) (v : bv) : option (option Z) :=
  let w := width v in
  if w =? 0 then Some (Some 0%Z)
  else if count v =? 0 then None
  else if w <? 64 then
    if odd_count m v then None
    else if N.testbit (uval v) (sign_bit w (count v))
    then Some (Some (Z.of_N (uval v mod 2 ^ w) - Z.of_N (2 ^ w))%Z)
    else Some (Some (signed 64 (uval v mod 2 ^ 64)))
  else if w =? 64 then Some (Some (signed 64 (uval v mod 2 ^ 64)))
  else Some (if count v =? 1 then None else i64_result (signed (64 * count v) (uval v))).

Definition load_word_is (v : bv) (x : N) : option bool :=
  if width v =? 1 then if count v =? 0 then None else Some (uval v mod 2 ^ 64 =? x)
  else Some false.
