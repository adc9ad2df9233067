(** * Spec: the vocabulary in which the properties are stated.

    Nothing here mentions how the code computes anything: a bit-vector is a
    width and a list of 64-bit words (the data layout), and this file says which
    number such a value denotes. *)

From Verif Require Import Base Bv.

(** Number denoted by a list of 64-bit words, least significant word first. *)
Fixpoint words_val (l : list N) : N :=
  match l with
  | [] => 0
  | x :: t => x + 2 ^ 64 * words_val t
  end.

(** Unsigned value of a bit-vector. *)
Definition uval (v : bv) : N := words_val (words v).

(** Well-formed: the width is a u32, there are exactly ceil(width / 64) words,
    each is a u64, and no bit at or above the width is set. *)
Definition wf (v : bv) : Prop :=
  width v < 2 ^ 32
  /\ len (words v) = (width v + 63) / 64
  /\ Forall (fun x => x < 2 ^ 64) (words v)
  /\ uval v < 2 ^ width v.

(** [v] is the well-formed bit-vector of width [w] with unsigned value [n]. *)
Definition is_bv (v : bv) (w n : N) : Prop := wf v /\ width v = w /\ uval v = n.

(** The computation [r] returns (does not panic) the [w]-bit value [n]. *)
Definition yields (r : res bv) (w n : N) : Prop := exists v, r = Ok v /\ is_bv v w n.

(** The computation panics. *)
Definition panics {A} (r : res A) : Prop := exists p, r = Panic p.

(** Two's complement interpretation of the [w]-bit number [n]. *)
Definition signed (w n : N) : Z :=
  if n <? 2 ^ (w - 1) then Z.of_N n else (Z.of_N n - 2 ^ Z.of_N w)%Z.

(** The [w]-bit number congruent to the integer [z]. *)
Definition wrap (w : N) (z : Z) : N := Z.to_N (z mod 2 ^ Z.of_N w).

(** Bit [i] of a number is written [N.testbit n i]. *)

(** The [w]-bit value [n], spelled out as words (used for examples and to say
    that a value of every width exists). *)
Fixpoint words_of (k : nat) (n : N) : list N :=
  match k with
  | O => []
  | S k => n mod 2 ^ 64 :: words_of k (n / 2 ^ 64)
  end.
Definition bv_of (w n : N) : bv := mkbv w (words_of (N.to_nat ((w + 63) / 64)) n).

(** [r] returns a well-formed [w]-bit value whose bit [i] is [f i] for every
    [i < w], with no bit set at or above [w]. *)
Definition bits_of (r : res bv) (w : N) (f : N -> bool) : Prop :=
  exists v n, r = Ok v /\ is_bv v w n
    /\ (forall i, i < w -> N.testbit n i = f i)
    /\ (forall i, w <= i -> N.testbit n i = false).

(** [z] is representable as a [w]-bit two's complement number. *)
Definition fits (w : N) (z : Z) : Prop := (- 2 ^ (Z.of_N w - 1) <= z < 2 ^ (Z.of_N w - 1))%Z.

(** An i64 holding [z], if there is one. *)
Definition i64_result (z : Z) : option Z :=
  if ((- 2 ^ 63 <=? z) && (z <? 2 ^ 63))%Z then Some z else None.
