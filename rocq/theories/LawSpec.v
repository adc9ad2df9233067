(** * LawSpec: laws of bit-vector arithmetic, as pairs of expressions
    (ExprSpec.v) over three operands of the same width. *)

From Verif Require Import Base Bv Spec ExprSpec.

Definition vx : expr := EVar 0.
Definition vy : expr := EVar 1.
Definition vz : expr := EVar 2.

(** the operands *)
Definition operands (a b c : bv) : N -> bv :=
  fun i => if i =? 0 then a else if i =? 1 then b else c.

Definition one (w : N) : expr := EWord 1 w.
(** only the sign bit is set *)
Definition sign_bit (w : N) : expr := ENot (EShr (EOnes w) (one w)).

(** ** Laws for every width [w > 0] *)
Definition laws (w : N) : list (expr * expr) := [
  (* addition *)
  (EAdd vx vy, EAdd vy vx);
  (EAdd (EAdd vx vy) vz, EAdd vx (EAdd vy vz));
  (EAdd vx (EZero w), vx);
  (EAdd vx (ENeg vx), EZero w);
  (ESub vx vy, EAdd vx (ENeg vy));
  (ESub (EAdd vx vy) vy, vx);
  (ESub vx vx, EZero w);
  (ENeg (ENeg vx), vx);
  (ENeg vx, EAdd (ENot vx) (one w));
  (ENeg (EAdd vx vy), EAdd (ENeg vx) (ENeg vy));
  (ENot vx, ESub (EOnes w) vx);
  (* Boolean algebra *)
  (EAnd vx vy, EAnd vy vx);
  (EOr vx vy, EOr vy vx);
  (EXor vx vy, EXor vy vx);
  (EAnd (EAnd vx vy) vz, EAnd vx (EAnd vy vz));
  (EOr (EOr vx vy) vz, EOr vx (EOr vy vz));
  (EXor (EXor vx vy) vz, EXor vx (EXor vy vz));
  (EAnd vx (EOr vy vz), EOr (EAnd vx vy) (EAnd vx vz));
  (EOr vx (EAnd vy vz), EAnd (EOr vx vy) (EOr vx vz));
  (EAnd vx (EOnes w), vx);
  (EAnd vx (EZero w), EZero w);
  (EOr vx (EZero w), vx);
  (EOr vx (EOnes w), EOnes w);
  (EAnd vx vx, vx);
  (EOr vx vx, vx);
  (EAnd vx (ENot vx), EZero w);
  (EOr vx (ENot vx), EOnes w);
  (ENot (ENot vx), vx);
  (ENot (EAnd vx vy), EOr (ENot vx) (ENot vy));
  (ENot (EOr vx vy), EAnd (ENot vx) (ENot vy));
  (EXor vx vx, EZero w);
  (EXor vx (EOnes w), ENot vx);
  (EXor vx vy, EOr (EAnd vx (ENot vy)) (EAnd (ENot vx) vy));
  (* both *)
  (EAdd (EXor vx vy) (EAdd (EAnd vx vy) (EAnd vx vy)), EAdd vx vy);
  (EAdd (EAnd vx vy) (EOr vx vy), EAdd vx vy);
  (* order *)
  (EGtS vx vy, EGt (EXor vx (sign_bit w)) (EXor vy (sign_bit w)));
  (ENot (EEq vx vy), EOr (EGt vx vy) (EGt vy vx));
  (EEq vx vy, EEq (ESub vx vy) (EZero w));
  (EGeS vx vy, ENot (EGtS vy vx))
].

(** ** Laws of multiplication, [0 < w <= 64] *)
Definition mul_laws (w : N) : list (expr * expr) := [
  (EMul vx vy, EMul vy vx);
  (EMul (EMul vx vy) vz, EMul vx (EMul vy vz));
  (EMul vx (EAdd vy vz), EAdd (EMul vx vy) (EMul vx vz));
  (EMul vx (one w), vx);
  (EMul vx (EZero w), EZero w);
  (EMul vx (EOnes w), ENeg vx);
  (EMul (ENeg vx) vy, ENeg (EMul vx vy))
].

(** ** Slices, concatenation and shifts by a constant [0 < k < w] *)
Definition split_laws (w k : N) : list (expr * expr) := [
  (EConcat (ESlice vx (w - 1) k) (ESlice vx (k - 1) 0), vx);
  (ESlice vx (w - 1) 0, vx);
  (ESlice (EConcat vx vy) (w - 1) 0, vy);
  (ESlice (EConcat vx vy) (w + w - 1) w, vx);
  (ESlice (EZext vx k) (w - 1) 0, vx);
  (ESlice (ESext vx k) (w - 1) 0, vx);
  (EZext vx k, EConcat (EZero k) vx);
  (ESext (ESext vx k) k, ESext vx (k + k));
  (EShr vx (EWord k w), EZext (ESlice vx (w - 1) k) k);
  (EAsr vx (EWord k w), ESext (ESlice vx (w - 1) k) k)
].
(** left shift by a constant that is no multiple of 64 (see C06) *)
Definition shift_left_laws (w k : N) : list (expr * expr) := [
  (EShl vx (EWord k w), EConcat (ESlice vx (w - 1 - k) 0) (EZero k))
].

(** The two sides of a law, evaluated with the library's operations on the
    operands [a], [b] and [c], return the same bit-vector. *)
Definition holds (m : mode) (a b c : bv) (p : expr * expr) : Prop :=
  evaluate m (operands a b c) (fst p) = evaluate m (operands a b c) (snd p)
  /\ exists v, evaluate m (operands a b c) (fst p) = Ok v.
