(** * PropertiesPretty: the multi-line Debug texts (C90). *)

From Coq Require Import String.
From Verif Require Import Base Arith Strings Bv Map Indexed Array Fmt Pretty.
From Verif Require Import Spec FmtSpec PrettySpec.
From Verif Require Import PropsArith PPretty.
Open Scope list_scope.

(** C90: [format!("{:#?}", value)] for a bit-vector: the binary numeral, indented. *)
Theorem C90_bit_vectors : forall v w x, is_bv v w x -> exists s, bits_text w x s
  /\ pretty_value (VBitVec v) = Ok (line (lit "BitVec(") ++ line (lit "    ValueOwned(" ++ s ++ lit "),") ++ lit ")").
Proof. exact pretty_bits. Qed.
Print Assumptions C90_bit_vectors.

(** C90: Different values have different texts. *)
Theorem C90_injective : forall v v' w x w' x', is_bv v w x -> is_bv v' w' x' ->
  pretty_value (VBitVec v) = pretty_value (VBitVec v') -> v = v'.
Proof. exact pretty_injective. Qed.
Print Assumptions C90_injective.

(** C90: Indices: one line for the width, one for the position. *)
Theorem C90_index : forall i, i_width i < 2 ^ 32 -> i_index i < 2 ^ 32 -> exists a b,
  decimal (i_width i) a /\ decimal (i_index i) b
  /\ pretty_index i = line (lit "BitVecValueIndex {") ++ line (lit "    width: " ++ a ++ lit ",")
                       ++ line (lit "    index: " ++ b ++ lit ",") ++ lit "}".
Proof. exact pretty_index_ok. Qed.
Print Assumptions C90_index.

Theorem C90_index_injective : forall i j,
  i_width i < 2 ^ 32 -> i_index i < 2 ^ 32 -> i_width j < 2 ^ 32 -> i_index j < 2 ^ 32 ->
  pretty_index i = pretty_index j -> i = j.
Proof. exact pretty_index_inj. Qed.
Print Assumptions C90_index_injective.

(** C90: Errors of the parsers, and arrays. *)
Theorem C90_errors_arrays : forall s d,
  pretty_parse_error InvalidDigit = line (lit "ParseIntError {") ++ line (lit "    kind: InvalidDigit,") ++ lit "}"
  /\ pretty_parse_error ExceedsWidth = line (lit "ParseIntError {") ++ line (lit "    kind: ExceedsWidth,") ++ lit "}"
  /\ pretty_value (VArray (ASparse s)) = Ok (line (lit "Array(") ++ line (lit "    SparseArrayValue(..),") ++ lit ")")
  /\ pretty_value (VArray (ADense d)) = Ok (line (lit "Array(") ++ line (lit "    DenseArrayValue(..),") ++ lit ")").
Proof. exact pretty_others. Qed.
Print Assumptions C90_errors_arrays.

Example C90_example :
  is_bv (bv_of 5 6) 5 6
  /\ pretty_value (VBitVec (bv_of 5 6)) = Ok (line (lit "BitVec(") ++ line (lit "    ValueOwned(00110),") ++ lit ")")
  /\ pretty_index (mkindex 70 12) = line (lit "BitVecValueIndex {") ++ line (lit "    width: 70,")
                                     ++ line (lit "    index: 12,") ++ lit "}".
Proof. split; [apply bv_of_is_bv; reflexivity|]. split; reflexivity. Qed.
