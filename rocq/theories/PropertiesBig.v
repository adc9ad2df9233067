(** * PropertiesBig: converting big integers of any size (C96). *)

From Verif Require Import Base BigInt Bv Spec IoSpec BigSpec PBig.

(** C96: [From<&BigUint>], for all numbers *)
Theorem C96_unsigned : forall m n,
  match big_width m 0 (N.size n) with
  | Some w => yields (bv_of_big_uint m n) w (n mod 2 ^ w)
  | None => panics (bv_of_big_uint m n)
  end.
Proof. exact big_uint_any. Qed.
Print Assumptions C96_unsigned.

(** C96: [From<&BigInt>], for all numbers; only a negative number for which no bit is
    counted fails in another way *)
Theorem C96_signed : forall m z,
  match big_width m 1 (N.size (Z.abs_N z)) with
  | Some w => if (w =? 0) && (z <? 0)%Z then panics (bv_of_big_int m z) else yields (bv_of_big_int m z) w (wrap w z)
  | None => panics (bv_of_big_int m z)
  end.
Proof. exact big_int_any. Qed.
Print Assumptions C96_signed.

(** C96: Up to 2^32 - 64 bits the width is that of the number, and one bit for a sign. *)
Theorem C96_small : forall m extra size, extra <= 1 -> size <= 2 ^ 32 - 64 ->
  big_width m extra size = Some (size + extra).
Proof. exact big_small. Qed.
Print Assumptions C96_small.

(** C96: A debug build too cuts a number of more than 2^38 bits without a panic ... *)
Theorem C96_cut : forall n, 2 ^ 38 < N.size n -> N.size n <= 2 ^ 38 + 2 ^ 32 - 64 ->
  yields (bv_of_big_uint Debug n) (N.size n - 2 ^ 38) (n mod 2 ^ (N.size n - 2 ^ 38)).
Proof. exact big_debug_cut. Qed.
Print Assumptions C96_cut.

(** C96: ... and both builds lose a number of exactly 2^38 bits, or a multiple, altogether. *)
Theorem C96_vanishes : forall m q n, N.size n = 2 ^ 38 * (q + 1) -> yields (bv_of_big_uint m n) 0 0.
Proof. exact big_vanishes. Qed.
Print Assumptions C96_vanishes.

Example C96_example :
  big_width Debug 0 70 = Some 70 /\ big_width Debug 1 0 = Some 1 /\ big_width Debug 1 (2 ^ 32 - 64) = Some (2 ^ 32 - 63)
  /\ big_width Debug 0 (2 ^ 32 - 63) = None /\ big_width Release 0 (2 ^ 32 + 5) = Some 5
  /\ big_width Release 1 (2 ^ 32 - 1) = Some 0 /\ big_width Debug 0 (2 ^ 38 + 5) = Some 5
  /\ big_width Release 0 (2 ^ 38 - 3) = Some 0 /\ big_width Release 0 (2 ^ 38 - 64) = Some (2 ^ 32 - 64)
  /\ bv_of_big_uint Debug (2 ^ 69 + 3) = Ok (bv_of 70 (2 ^ 69 + 3))
  /\ bv_of_big_int Debug (- 5) = Ok (bv_of 4 11).
Proof. repeat split; reflexivity. Qed.

(** numbers as large as [C96_vanishes] and [C96_cut] demand *)
Example C96_example_large :
  N.size (2 ^ (2 ^ 38 - 1)) = 2 ^ 38 * (0 + 1) /\ N.size (2 ^ (2 ^ 38)) = 2 ^ 38 + 1.
Proof. exact big_sizes. Qed.
