(** * Bytes: model of /repo/src/bv/io/bytes.rs
    (BYTES_PER_WORD = 8, BYTE_MASK = 255; bytes.rs:7-8) *)

From Verif Require Import Base Arith.

(** bytes.rs:15-21, inner loop of [to_bytes_le] ([k] iterations left) *)
Fixpoint push_bytes (k : nat) (byte_count value : N) (out : list N) : list N :=
  match k with
  | O => out
  | S k' =>
      if len out =? byte_count then out
      else push_bytes k' byte_count (wshr value 8) (out ++ [as_u8 (N.land value 255)])
  end.

(** bytes.rs:10-24 [to_bytes_le] *)
Definition to_bytes_le (values : list N) (width : N) : list N :=
  let byte_count := div_ceil width 8 in
  fold_left (fun out word => push_bytes 8 byte_count word out) values [].

(** bytes.rs:33-37, loop of [from_bytes_le] *)
Fixpoint from_bytes_loop (bytes : list N) (ii : N) (out : list N) : res (list N) :=
  match bytes with
  | [] => Ok out
  | bb :: rest =>
      let word_ii := ii / 8 in
      let shift_by := 8 * (as_u32 ii mod 8) in
      let* old := idx out word_ii in
      let* out := set_idx out word_ii (N.lor old (wshl bb shift_by)) in
      from_bytes_loop rest (ii + 1) out
  end.

(** bytes.rs:26-39 [from_bytes_le] *)
Definition from_bytes_le (m : mode) (bytes : list N) (width : N) (out : list N)
  : res (list N) :=
  let word_count := div_ceil width 64 in
  let* _ := debug_assert m (word_count <=? len out) in
  if width =? 0 then Ok out
  else
    let out := ar_clear out in
    let* out := from_bytes_loop bytes 0 out in
    ar_mask_msb m out width.
