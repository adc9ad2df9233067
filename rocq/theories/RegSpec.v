(** * RegSpec: histories of in-place updates, for C31 and C32.

    A register is a plain number below [2 ^ w].  [reg_step w x op] says what the
    update [op] does to the register [x]; it knows nothing about words. *)

From Verif Require Import Base Bv Spec TextSpec.

(** The in-place updates of the API (trait [BitVecMutOps]). *)
Inductive reg_op :=
| RAssign (src : bv)
| RClear
| ROnes
| RFromU64 (n : N)
| RFromI64 (z : Z)
| RSetBit (pos : N)
| RClearBit (pos : N)
| RMask
| RWord (k n : N)                      (* words_mut()[k] = n; mask_msb() *)
| RParse (s : list N) (radix : N).     (* assign_from_str_radix, whatever it returns *)

Definition reg_step (w x : N) (op : reg_op) : N :=
  match op with
  | RAssign src => uval src
  | RClear => 0
  | ROnes => 2 ^ w - 1
  | RFromU64 n => n mod 2 ^ w
  | RFromI64 z => wrap w z
  | RSetBit pos => if N.testbit x pos then x else x + 2 ^ pos
  | RClearBit pos => if N.testbit x pos then x - 2 ^ pos else x
  | RMask => x
  | RWord k n => let low := 2 ^ (64 * k) in
      (x mod low + n * low + x / (low * 2 ^ 64) * (low * 2 ^ 64)) mod 2 ^ w
  | RParse s radix => match signed_text radix s with Some z => wrap w z | None => x end
  end.

(** Documented use: equal widths, positions inside the vector, arguments that
    are u64 / i64 numbers; debug builds also require that they fit the width.
    Texts: up to 128 bits, a number that fits or no number at all (C26, C27). *)
Definition reg_legal (m : mode) (w : N) (op : reg_op) : Prop :=
  match op with
  | RAssign src => wf src /\ width src = w
  | RClear | ROnes | RMask => True
  | RFromU64 n => n < 2 ^ 64 /\ (m = Release \/ n < 2 ^ w)
  | RFromI64 z => fits 64 z /\ (m = Release \/ fits w z)
  | RSetBit pos | RClearBit pos => pos < w
  | RWord k n => k < (w + 63) / 64 /\ n < 2 ^ 64
  | RParse s radix => w <= 128 /\ 2 <= radix /\ radix <= 36 /\ s <> []
      /\ match signed_text radix s with
         | Some z => Z.abs_N z < 2 ^ w
         | None => match s with 45 :: 43 :: _ => False | _ => True end
         end
  end.

(** The same update performed by the code. *)
Definition reg_run (m : mode) (v : bv) (op : reg_op) : res bv :=
  match op with
  | RAssign src => bv_assign m v src
  | RClear => Ok (bv_clear v)
  | ROnes => bv_assign_ones m v
  | RFromU64 n => bv_assign_from_u64 m v n
  | RFromI64 z => bv_assign_from_i64 m v z
  | RSetBit pos => bv_set_bit v pos
  | RClearBit pos => bv_clear_bit v pos
  | RMask => bv_mask_msb m v
  | RWord k n => let* ws := set_idx (words v) k n in bv_mask_msb m (mkbv (width v) ws)
  | RParse s radix => let* (v', _) := bv_assign_from_str_radix m v s radix in Ok v'
  end.

(** A whole history. *)
Fixpoint reg_run_all (m : mode) (v : bv) (ops : list reg_op) : res bv :=
  match ops with
  | [] => Ok v
  | op :: rest => let* v' := reg_run m v op in reg_run_all m v' rest
  end.
