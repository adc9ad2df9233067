(** * ArrayMisuseSpec: operands of the wrong width in a release build (C72).

    Release builds do not check the widths of indices and elements. *)

From Verif Require Import Base Bv Array Spec ArraySpec.

(** The operands are valid bit-vectors, of any width. *)
Definition arr_any (op : arr_op) : Prop :=
  match op with AStore i x => wf i /\ wf x | AClear => True end.

(** Elements of at most 64 bits: what counts is the number that the index
    denotes; elements are cut off at the width of the array. *)
Definition loose_step (dw : N) (f : N -> N) (op : arr_op) : N -> N :=
  match op with
  | AStore i x => fun n => if n =? uval i then uval x mod 2 ^ dw else f n
  | AClear => fun _ => 0
  end.

(** Dense arrays of one-bit elements: indices are cut off at 32 bits, and an
    element of more than one bit counts as 0. *)
Definition loose_bit_step (f : N -> N) (op : arr_op) : N -> N :=
  match op with
  | AStore i x => fun n => if n =? uval i mod 2 ^ 32 then (if width x =? 1 then uval x else 0) else f n
  | AClear => fun _ => 0
  end.

(** First number that is not accepted as an index: dense arrays check the
    bounds of their elements, hash tables have no bounds. *)
Definition index_end (a : array) : N := if array_is_dense a then 2 ^ array_index_width a else 2 ^ 64.

(** First number that is not accepted as an index by a dense array of one-bit
    elements: the bit-vector has whole words. *)
Definition bit_index_end (iw : N) : N := 64 * ((2 ^ iw + 63) / 64).

(** Dense arrays of elements of more than 64 bits: the position of the first
    word of the element at index [i] is computed in 64 bits. *)
Definition reachable_index (dw i : N) : Prop := (dw + 63) / 64 * (i + 1) <= 2 ^ 64.
Definition arr_reaches (dw : N) (op : arr_op) : Prop :=
  match op with
  | AStore i x => wf i /\ wf x /\ uval i < 2 ^ 64 /\ reachable_index dw (uval i)
  | AClear => True
  end.
