(** * Fmt: the [Debug] implementations ([format!("{:?}", x)])

    A text is the list of its bytes, as in Strings.v.  The multi-line [{:#?}]
    is in Pretty.v.  Allocation is not modelled. *)

From Coq Require Import String Ascii.
From Verif Require Import Base Arith Strings Bv Map Indexed Array.
Open Scope N_scope.
Open Scope list_scope.

(** a string literal of the source *)
Definition lit (s : string) : list N := map N_of_ascii (list_ascii_of_string s).

(** owned.rs:146-150 [Debug for BitVecValue] *)
Definition debug_bv (v : bv) : res (list N) :=
  let* s := bv_to_bit_str v in Ok (lit "ValueOwned(" ++ s ++ lit ")").

(** borrowed.rs:29-33 [Debug for BitVecValueRef] *)
Definition debug_ref (v : bv) : res (list N) :=
  let* s := bv_to_bit_str v in Ok (lit "BitVecValueRef(" ++ s ++ lit ")").

(** borrowed.rs:63-67 [Debug for BitVecValueMutRef] *)
Definition debug_mut_ref (v : bv) : res (list N) :=
  let* s := bv_to_bit_str v in Ok (lit "BitVecValueMutRef(" ++ s ++ lit ")").

(** array/owned.rs:182-186 [Debug for DenseArrayValue] *)
Definition debug_dense (d : dense) : list N := lit "DenseArrayValue(..)".

(** array/owned.rs:581-585 [Debug for SparseArrayValue] *)
Definition debug_sparse (s : sparse) : list N := lit "SparseArrayValue(..)".

(** array/owned.rs:27-34 [Debug for ArrayValue] *)
Definition debug_array (a : array) : list N :=
  match a with ASparse s => debug_sparse s | ADense d => debug_dense d end.

(** lib.rs:11-15 derived [Debug for Value] *)
Definition debug_value (v : value) : res (list N) :=
  match v with
  | VArray a => Ok (lit "Array(" ++ debug_array a ++ lit ")")
  | VBitVec b => let* s := debug_bv b in Ok (lit "BitVec(" ++ s ++ lit ")")
  end.

(** indexed.rs:16-20 derived [Debug for BitVecValueIndex] *)
Definition debug_index (i : bvindex) : list N :=
  lit "BitVecValueIndex { width: " ++ display_dec (i_width i) ++ lit ", index: "
    ++ display_dec (i_index i) ++ lit " }".

(** indexed.rs:225-234 [Debug for ValueInterner] *)
Definition debug_interner (st : interner) : list N :=
  lit "ValueInterner(" ++ display_dec (len (in_small st)) ++ lit " small, "
    ++ display_dec (len (in_large st)) ++ lit " large)".

(** strings.rs:9-20 derived [Debug for ParseIntError] *)
Definition debug_parse_error (e : int_error_kind) : list N :=
  lit "ParseIntError { kind: "
    ++ match e with InvalidDigit => lit "InvalidDigit" | ExceedsWidth => lit "ExceedsWidth" end
    ++ lit " }".
