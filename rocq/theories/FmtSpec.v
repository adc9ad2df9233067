(** * FmtSpec: binary numerals and decimal numerals inside Debug texts, for C63. *)

From Verif Require Import Base TextSpec.

(** [s] is the binary numeral of [x] with exactly [w] digits, highest first. *)
Definition bits_text (w x : N) (s : list N) : Prop :=
  len s = w /\ forall i, i < w -> nth (N.to_nat i) s 0 = if N.testbit x (w - 1 - i) then 49 else 48.

(** [s] is the decimal numeral of [n]. *)
Definition decimal (n : N) (s : list N) : Prop := number 10 s = Some n /\ no_leading_zero s.
