(** * MixedSpec: operands of different widths (C74).

    Debug builds stop when the operands of an operation differ in width.  Release
    builds do not look.  This file says in terms of the two widths and the two
    numbers what they return instead.  A value of width [w] is stored in
    [places w] 64-bit words. *)

From Verif Require Import Base Bv Spec CallSpec PanicSpec.

Definition places (w : N) : N := (w + 63) / 64.

(** bits present in both operands *)
Definition common (w w' : N) : N := 64 * N.min (places w) (places w').

(** the low bits that both operands have *)
Definition low (w w' n : N) : N := n mod 2 ^ common w w'.

(** the bits of the [w]-bit operand that are left if both operands are cut to
    the same number of words, keeping the most significant ones *)
Definition high (w w' n : N) : N := n / 2 ^ (64 * places w - common w w').

(** an operation on a one-word value looks only at the first word of the other *)
Definition seen (w k : N) : N := if places w =? 1 then k mod 2 ^ 64 else k.

(** The number the result holds, [None] for a panic.  The result has the width of
    the first operand; its number may be too large for that width. *)
Definition mixed (op : binop) (w n w' k : N) : option N :=
  let none := places w' =? 0 in
  let missing := (places w =? 1) && none in
  let x := low w w' n in
  let y := low w w' k in
  let by_ := seen w k in
  match op with
  | BAnd => if missing then None else Some (N.land x y)
  | BOr => if missing then None else Some (N.lor x y)
  | BXor => if missing then None else Some (N.lxor x y)
  | BAdd =>
      if (w =? 0) || missing then None
      else Some ((x + y) mod 2 ^ common w w' mod 2 ^ w)
  | BSub =>
      if (w =? 0) || missing then None
      else Some ((x + (2 ^ common w w' - y)) mod 2 ^ common w w' mod 2 ^ w)
  | BMul => if (w =? 0) || (64 <? w) || none then None else Some ((n * k) mod 2 ^ w)
  | BShl =>
      if none then None
      else Some (if w <=? by_ then 0
                 else if by_ mod 64 =? 0 then (n * 2 ^ by_) mod 2 ^ (64 * places w)
                 else (n * 2 ^ by_) mod 2 ^ w)
  | BShr => if none then None else Some (n / 2 ^ by_)
  | BAshr =>
      if (w =? 0) || none then None else Some (wrap w (signed w n / 2 ^ Z.of_N by_))
  (* takes operands of any width anyway *)
  | BConcat => Some (n * 2 ^ w' + k)
  end.

(** what the comparisons compare *)
Definition left_ (w n w' : N) : N := if places w =? 1 then n else high w w' n.
Definition right_ (w w' k : N) : N := if places w =? 1 then k mod 2 ^ 64 else high w' w k.

Definition mixed_greater (strict : bool) (w n w' k : N) : option bool :=
  if (places w =? 1) && (places w' =? 0) then None
  else Some (if strict then right_ w w' k <? left_ w n w' else right_ w w' k <=? left_ w n w').

(** the bit of the second operand that is taken for its sign: in the last word
    looked at, where the sign of a [w]-bit value would be *)
Definition sign_place (w w' : N) : N :=
  64 * ((if places w =? 1 then 1 else places w') - 1) + (w - 1) mod 64.

Definition mixed_greater_signed (strict : bool) (w n w' k : N) : option bool :=
  if (w =? 0) || (w' =? 0) then None
  else match N.testbit n (w - 1), N.testbit k (sign_place w w') with
       | true, false => Some false
       | false, true => Some true
       | _, _ => mixed_greater strict w n w' k
       end.

Definition mixed_test (t : test) (w n w' k : N) : option bool :=
  match t with
  | TEqual => Some (low w w' n =? low w w' k)
  | TNotEqual => Some (negb (low w w' n =? low w w' k))
  | TGreater => mixed_greater true w n w' k
  | TLess => mixed_greater true w' k w n
  (* above 64 bits strict, see C14 *)
  | TGreaterEqual => mixed_greater (negb (places w =? 1)) w n w' k
  | TLessEqual => mixed_greater (negb (places w' =? 1)) w' k w n
  | TGreaterSigned => mixed_greater_signed true w n w' k
  | TLessSigned => mixed_greater_signed true w' k w n
  | TGreaterEqualSigned => mixed_greater_signed false w n w' k
  | TLessEqualSigned => mixed_greater_signed false w' k w n
  | TEqOwned | TEqRef => Some ((w =? w') && (n =? k))
  end.

(** [assign] copies the words *)
Definition mixed_assign (w w' k : N) : option N :=
  if places w =? places w' then Some k else None.

(** the outcome is a panic, or a value of [w] bits in its full storage that holds
    the number *)
Definition delivers (r : res bv) (w : N) (o : option N) : Prop :=
  match o with
  | None => panics r
  | Some n => exists v, r = Ok v /\ well_shaped v /\ width v = w /\ uval v = n
  end.

Definition answers (r : res bool) (o : option bool) : Prop :=
  match o with None => panics r | Some b => r = Ok b end.
