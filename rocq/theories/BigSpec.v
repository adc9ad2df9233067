(** * BigSpec: the width chosen for a big integer of any size. *)

From Verif Require Import Base.

(** [size]: the number of bits of the magnitude; [extra]: 1 for the sign of a signed number.
    The 64-bit digits are counted modulo 2^32 in both build profiles.  No digits counted:
    only the sign is given a bit.  Otherwise the bits are counted in 32 bits;
    [None]: this overflows, and a debug build panics. *)
Definition big_width (m : mode) (extra size : N) : option N :=
  let digits := ((size + 63) / 64) mod 2 ^ 32 in
  if digits =? 0 then Some extra
  else match m with
       | Debug => if 2 ^ 32 <=? 64 * digits then None else Some (size mod 2 ^ 38 + extra)
       | Release => Some ((size + extra) mod 2 ^ 32)
       end.
