(** * ViewSpec: bit-vectors seen from outside, as texts of '0' and '1' and as
    big integers. *)

From Verif Require Import Base Bv Spec.

(** A non-empty text of the characters '0' (48) and '1' (49), short enough that
    its length is a width. *)
Definition binary (s : list N) : Prop :=
  s <> [] /\ Forall (fun c => c = 48 \/ c = 49) s /\ len s < 2 ^ 32.

(** [BitVecValue::from_bit_str(s).unwrap()] *)
Definition read (m : mode) (s : list N) : res bv :=
  let* p := bv_from_bit_str m s in
  match p with Parsed v => Ok v | ParseErr _ => Panic PUnwrap end.

(** [k] copies of a character, the first [k] characters and all but these *)
Definition copies (k c : N) : list N := repeat c (N.to_nat k).
Definition first (k : N) (s : list N) : list N := firstn (N.to_nat k) s.
Definition rest (k : N) (s : list N) : list N := skipn (N.to_nat k) s.

(** Combine two texts character by character. *)
Fixpoint zip (f : N -> N -> N) (a b : list N) : list N :=
  match a, b with
  | x :: a', y :: b' => f x y :: zip f a' b'
  | _, _ => []
  end.
Definition char_and (c d : N) : N := if (c =? 49) && (d =? 49) then 49 else 48.
Definition char_or (c d : N) : N := if (c =? 49) || (d =? 49) then 49 else 48.
Definition char_xor (c d : N) : N := if c =? d then 48 else 49.
Definition char_not (c : N) : N := if c =? 49 then 48 else 49.

(** Dictionary order. *)
Fixpoint before (a b : list N) : bool :=
  match a, b with
  | x :: a', y :: b' => (x <? y) || ((x =? y) && before a' b')
  | [], _ :: _ => true
  | _, [] => false
  end.
