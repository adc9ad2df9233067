(** * ArrayPanicSpec: which array calls panic in a debug build (C71). *)

From Verif Require Import Base Bv Array Spec ArraySpec.

(** A debug build refuses to create a dense array of more than 2^30 "bytes".
    The check counts words instead of bytes for elements of more than 64 bits. *)
Definition too_large (iw dw : N) : Prop :=
  2 ^ 30 < (if 64 <? dw then (dw + 63) / 64 * 2 ^ iw else dense_bytes iw dw).

(** Arrays of 2^32 or more one-bit elements pass that check, but their elements
    live in one bit-vector, whose width is computed modulo 2^32. *)
Definition too_many_bits (iw dw : N) : Prop := dw = 1 /\ 32 <= iw.

(** Some element differs from [x0]. *)
Definition varied (iw : N) (f : N -> N) (x0 : N) : Prop := exists i, i < 2 ^ iw /\ f i <> x0.

(** Converting a sparse array with default [x0] and contents [f] to a dense one:
    the result is too large; or the elements have more than 64 bits and one of
    them has to be copied; or there are too many one-bit elements and one of
    them is 1, or they are 1 by default. *)
Definition densify_rejected (iw dw : N) (f : N -> N) (x0 : N) : Prop :=
  too_large iw dw
  \/ (64 < dw /\ varied iw f x0)
  \/ (too_many_bits iw dw /\ (x0 = 1 \/ varied iw f x0)).

(** Converting a dense array to a sparse one: elements of 2 to 8 bits are
    counted in a table of eight entries. *)
Definition sparsify_rejected (iw dw : N) (f : N -> N) : Prop :=
  1 < dw /\ dw <= 8 /\ exists i, i < 2 ^ iw /\ 8 <= f i.
