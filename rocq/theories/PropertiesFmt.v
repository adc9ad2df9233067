(** * PropertiesFmt: size of the interner and Debug texts (C62, C63). *)

From Coq Require Import String.
From Verif Require Import Base Arith Strings Bv Map Indexed Array Fmt.
From Verif Require Import Spec TextSpec StoreSpec FmtSpec.
From Verif Require Import PropsArith PIntern PFmt.
Open Scope list_scope.

(** ** C62: the interner stores every value once *)
Theorem C62_size : forall m vs, Forall (fun v => wf v /\ 0 < width v) vs ->
  exists st is, intern_all m interner_new vs = Ok (st, is) /\ len (interner_words st) = stored vs
    /\ len (in_small st) = len (small_values vs) /\ len (in_large st) = len (wide_values vs).
Proof. exact intern_stored. Qed.
Print Assumptions C62_size.

(** Interning a value again changes nothing and gives the same index. *)
Theorem C62_again : forall m vs, Forall (fun v => wf v /\ 0 < width v) vs -> stored vs <= 2 ^ 32 ->
  exists st is, intern_all m interner_new vs = Ok (st, is)
    /\ forall k v i, nth_error vs k = Some v -> nth_error is k = Some i ->
         interner_get_index m st v = Ok (st, i).
Proof. exact intern_again. Qed.
Print Assumptions C62_again.

Definition C62_vs : list bv :=
  [bv_of 16 1000; bv_of 16 3; bv_of 100 1000; bv_of 17 1000; bv_of 16 1000; bv_of 128 1000; bv_of 130 5].

Example C62_example : Forall (fun v => wf v /\ 0 < width v) C62_vs /\ stored C62_vs = 8 + 1 + (2 + 3)
  /\ exists st is, intern_all Debug interner_new C62_vs = Ok (st, is) /\ len (interner_words st) = 14.
Proof.
  split; [|split; [reflexivity|eexists _, _; split; reflexivity]].
  assert (H : forall w n, w < 2 ^ 32 -> 0 < w -> n < 2 ^ w -> wf (bv_of w n) /\ 0 < width (bv_of w n)).
  { intros w n A B C. split; [apply (bv_of_is_bv w n); auto|auto]. }
  repeat constructor; try (apply H; reflexivity); reflexivity.
Qed.

(** ** C63: Debug texts *)
Theorem C63_bit_vectors : forall v w x, is_bv v w x -> exists s, bits_text w x s
  /\ debug_bv v = Ok (lit "ValueOwned(" ++ s ++ lit ")")
  /\ debug_ref v = Ok (lit "BitVecValueRef(" ++ s ++ lit ")")
  /\ debug_mut_ref v = Ok (lit "BitVecValueMutRef(" ++ s ++ lit ")")
  /\ debug_value (VBitVec v) = Ok (lit "BitVec(ValueOwned(" ++ s ++ lit "))").
Proof. exact debug_bits. Qed.
Print Assumptions C63_bit_vectors.

(** Different values have different texts. *)
Theorem C63_injective : forall v v' w x w' x', is_bv v w x -> is_bv v' w' x' ->
  debug_bv v = debug_bv v' -> v = v'.
Proof. exact debug_injective. Qed.
Print Assumptions C63_injective.

Theorem C63_index : forall i, i_width i < 2 ^ 32 -> i_index i < 2 ^ 32 -> exists a b,
  decimal (i_width i) a /\ decimal (i_index i) b
  /\ debug_index i = lit "BitVecValueIndex { width: " ++ a ++ lit ", index: " ++ b ++ lit " }".
Proof. exact debug_index_ok. Qed.
Print Assumptions C63_index.

Theorem C63_index_injective : forall i j,
  i_width i < 2 ^ 32 -> i_index i < 2 ^ 32 -> i_width j < 2 ^ 32 -> i_index j < 2 ^ 32 ->
  debug_index i = debug_index j -> i = j.
Proof. exact debug_index_inj. Qed.
Print Assumptions C63_index_injective.

(** The text of an interner counts the different values it was given. *)
Theorem C63_interner : forall m vs, Forall (fun v => wf v /\ 0 < width v) vs -> stored vs < 2 ^ 64 ->
  exists st is a b, intern_all m interner_new vs = Ok (st, is)
    /\ decimal (len (small_values vs)) a /\ decimal (len (wide_values vs)) b
    /\ debug_interner st = lit "ValueInterner(" ++ a ++ lit " small, " ++ b ++ lit " large)".
Proof. exact debug_interner_ok. Qed.
Print Assumptions C63_interner.

(** Errors of the parsers, and arrays. *)
Theorem C63_errors_arrays : forall s d,
  debug_parse_error InvalidDigit = lit "ParseIntError { kind: InvalidDigit }"
  /\ debug_parse_error ExceedsWidth = lit "ParseIntError { kind: ExceedsWidth }"
  /\ debug_value (VArray (ASparse s)) = Ok (lit "Array(SparseArrayValue(..))")
  /\ debug_value (VArray (ADense d)) = Ok (lit "Array(DenseArrayValue(..))").
Proof. exact debug_errors. Qed.
Print Assumptions C63_errors_arrays.

Example C63_example :
  is_bv (bv_of 5 6) 5 6 /\ debug_bv (bv_of 5 6) = Ok (lit "ValueOwned(00110)")
  /\ debug_value (VBitVec (bv_of 5 6)) = Ok (lit "BitVec(ValueOwned(00110))")
  /\ debug_value (VArray (ASparse (mksparse 8 70 (SU64Big (bv_of 70 0) [])))) = Ok (lit "Array(SparseArrayValue(..))")
  /\ debug_index (mkindex 70 12) = lit "BitVecValueIndex { width: 70, index: 12 }"
  /\ (exists st is, intern_all Debug interner_new C62_vs = Ok (st, is)
      /\ debug_interner st = lit "ValueInterner(1 small, 2 large)").
Proof.
  split; [apply bv_of_is_bv; reflexivity|]. repeat (split; [reflexivity|]).
  eexists _, _. split; reflexivity.
Qed.
