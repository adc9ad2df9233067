(** * Pretty: the [Debug] implementations with [format!("{:#?}", x)]

    Only derived implementations look at the [#]; those written by hand with
    [write!] do not (owned.rs:146-150, borrowed.rs:29-33 and 63-67,
    array/owned.rs:27-34, 182-186 and 581-585, indexed.rs:225-234), so that their
    multi-line text is the text of Fmt.v. *)

From Coq Require Import String.
From Verif Require Import Base Arith Strings Bv Map Indexed Array Fmt.
Open Scope N_scope.
Open Scope list_scope.

Definition newline : N := 10.

(** std: [core::fmt::builders::PadAdapter] writes four spaces in front of every
    character that follows a line break (or comes first, [on_newline]) *)
Fixpoint pad (on_newline : bool) (s : list N) : list N :=
  match s with
  | [] => []
  | c :: rest => (if on_newline then lit "    " else []) ++ c :: pad (c =? newline) rest
  end.

(** std: [DebugStruct] with [#]: every field on its own line, followed by a comma *)
Definition pretty_struct (name : string) (fields : list (string * list N)) : list N :=
  lit name ++ lit " {" ++ [newline]
    ++ flat_map (fun f => pad true (lit (fst f) ++ lit ": " ++ snd f ++ lit "," ++ [newline])) fields
    ++ lit "}".

(** std: [DebugTuple] with [#] *)
Definition pretty_tuple (name : string) (fields : list (list N)) : list N :=
  lit name ++ lit "(" ++ [newline]
    ++ flat_map (fun f => pad true (f ++ lit "," ++ [newline])) fields
    ++ lit ")".

(** lib.rs:11-15 derived [Debug for Value] *)
Definition pretty_value (v : value) : res (list N) :=
  match v with
  | VArray a => Ok (pretty_tuple "Array" [debug_array a])
  | VBitVec b => let* s := debug_bv b in Ok (pretty_tuple "BitVec" [s])
  end.

(** indexed.rs:16-20 derived [Debug for BitVecValueIndex] *)
Definition pretty_index (i : bvindex) : list N :=
  pretty_struct "BitVecValueIndex"
    [("width"%string, display_dec (i_width i)); ("index"%string, display_dec (i_index i))].

(** strings.rs:9-20 derived [Debug for ParseIntError] and [IntErrorKind] *)
Definition pretty_parse_error (e : int_error_kind) : list N :=
  pretty_struct "ParseIntError"
    [("kind"%string, match e with InvalidDigit => lit "InvalidDigit" | ExceedsWidth => lit "ExceedsWidth" end)].
