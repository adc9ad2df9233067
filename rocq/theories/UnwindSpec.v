(** * UnwindSpec: calls that panic, and what is left behind (C81).

    A history here is a list of calls in which every panic is caught and the history
    goes on with what the call left behind. *)

From Verif Require Import Base Bv Map Array Indexed Unwind Spec TextSpec RegSpec KindSpec.

(** ** Bit-vectors *)

(** The in-place update [op] of a bit-vector of width [w], on its words. *)
Definition reg_call (m : mode) (w : N) (op : reg_op) : eff (list N) unit :=
  match op with
  | RAssign src => un_assign m w src
  | RClear => un_clear
  | ROnes => un_assign_ones m w
  | RFromU64 n => un_assign_from_u64 m w n
  | RFromI64 z => un_assign_from_i64 m w z
  | RSetBit pos => un_set_bit pos
  | RClearBit pos => un_clear_bit pos
  | RMask => un_mask_msb m w
  | RWord k n => do _ <- write (fun ws => set_idx ws k n) ;; un_mask_msb m w
  | RParse s radix => do _ <- un_from_str_radix m s radix w ;; ret tt
  end.

(** Arguments of the right Rust types; texts have less than 2^30 characters. *)
Definition reg_typed (op : reg_op) : Prop :=
  match op with
  | RFromU64 n => n < 2 ^ 64
  | RFromI64 z => fits 64 z
  | RParse s _ => len s < 2 ^ 30
  | _ => True
  end.

(** What a panicking update leaves in the register: [assign_from_u64] and
    [assign_from_i64] leave the number they were given, cut to the width; all other
    updates leave the register alone. *)
Definition reg_left (w x : N) (op : reg_op) : N :=
  match op with
  | RFromU64 n => n mod 2 ^ w
  | RFromI64 z => wrap w z
  | _ => x
  end.

(** A history with all panics caught: for each call whether it panicked, and the
    words at the end. *)
Fixpoint reg_caught (m : mode) (w : N) (ws : list N) (ops : list reg_op)
  : list (reg_op * bool) * list N :=
  match ops with
  | [] => ([], ws)
  | op :: rest =>
      let '(ws1, panicked) :=
        match reg_call m w op ws with Returned ws' _ => (ws', false) | Unwound ws' _ => (ws', true) end in
      let (log, ws2) := reg_caught m w ws1 rest in
      ((op, panicked) :: log, ws2)
  end.

(** The same history on a plain number. *)
Fixpoint reg_reference (w x : N) (log : list (reg_op * bool)) : N :=
  match log with
  | [] => x
  | (op, panicked) :: rest =>
      reg_reference w (if panicked : bool then reg_left w x op else reg_step w x op) rest
  end.

(** ** Arrays *)
Definition change_call (probe : probe_oracle) (ho : hash_order) (m : mode) (c : change)
  : eff array unit :=
  match c with
  | Store i x => un_array_store probe m i x
  | Clear => un_array_clear
  | MakeDense => un_array_make_dense ho m
  end.

Fixpoint array_caught (probe : probe_oracle) (ho : hash_order) (m : mode) (a : array)
  (cs : list change) : list (change * bool) * array :=
  match cs with
  | [] => ([], a)
  | c :: rest =>
      let '(a1, panicked) :=
        match change_call probe ho m c a with Returned a' _ => (a', false) | Unwound a' _ => (a', true) end in
      let (log, a2) := array_caught probe ho m a1 rest in
      ((c, panicked) :: log, a2)
  end.

(** the calls of a history that returned *)
Definition returned (log : list (change * bool)) : list change :=
  map fst (filter (fun cp => negb (snd cp)) log).

(** ** Views into a shared store: [op] is called on the view of index [i]; this is
    the store afterwards, whether or not the call panics *)
Definition store_left (m : mode) (store : list N) (i : bvindex) (op : reg_op) : res (list N) :=
  let* v := get_mut_ref store i in
  Ok (splice store (i_index i)
        (match reg_call m (i_width i) op (words v) with
         | Returned ws _ => ws
         | Unwound ws _ => ws
         end)).
