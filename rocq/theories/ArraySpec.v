(** * ArraySpec: what an array is, for C37 - C45.

    An array with index width [iw] and data width [dw] is a function from the
    numbers below [2 ^ iw] to the numbers below [2 ^ dw]. *)

From Coq Require Import Permutation.
From Verif Require Import Base Bv Map Array Serde Spec.

(** ** Mutations *)
Inductive arr_op := AStore (index data : bv) | AClear.

(** Operands have the widths of the array. *)
Definition arr_legal (iw dw : N) (op : arr_op) : Prop :=
  match op with
  | AStore i d => wf i /\ width i = iw /\ wf d /\ width d = dw
  | AClear => True
  end.

(** What a mutation does to the contents. *)
Definition arr_step (f : N -> N) (op : arr_op) : N -> N :=
  match op with
  | AStore i d => fun n => if n =? uval i then uval d else f n
  | AClear => fun _ => 0
  end.

(** The same, performed by the code. *)
Definition arr_run (probe : probe_oracle) (m : mode) (a : array) (op : arr_op) : res array :=
  match op with
  | AStore i d => array_store probe m a i d
  | AClear => Ok (array_clear a)
  end.
Fixpoint arr_run_all (probe : probe_oracle) (m : mode) (a : array) (ops : list arr_op)
  : res array :=
  match ops with
  | [] => Ok a
  | op :: rest => let* a' := arr_run probe m a op in arr_run_all probe m a' rest
  end.

(** ** Observation *)

(** Array [a] has widths [iw] and [dw], and reading it at [i] gives [f i]. *)
Definition arr_is (probe : probe_oracle) (m : mode) (a : array) (iw dw : N) (f : N -> N) : Prop :=
  array_index_width a = iw /\ array_data_width a = dw
  /\ forall i, wf i -> width i = iw -> yields (array_select probe m a i) dw (f (uval i)).

(** ** Sizes *)

(** Bytes a dense array stores: one bit, one byte, one word, or as many words as
    one element needs, for each element. *)
Definition dense_bytes (iw dw : N) : N :=
  if dw =? 1 then (2 ^ iw + 7) / 8
  else if dw <=? 8 then 2 ^ iw
  else if dw <=? 64 then 8 * 2 ^ iw
  else 8 * ((dw + 63) / 64) * 2 ^ iw.

(** A dense array needs at most 2^63 - 1 bytes, the most that a Rust vector can hold,
    and one-bit elements can be counted in 32 bits (they live in one bit-vector). *)
Definition addressable (iw dw : N) : Prop := dense_bytes iw dw < 2 ^ 63 /\ (dw = 1 -> iw < 32).

(** ** Hash tables *)

(** Iteration over a hash table visits every entry exactly once, in any order. *)
Definition reorders (ho : hash_order) : Prop := forall A (l : list A), Permutation l (ho A l).

(** Looking up a key that is in the table examines that entry; an empty table has
    no entry to examine. *)
Definition hashing (probe : probe_oracle) : Prop :=
  (forall keys k, In k keys -> probe keys k = true) /\ (forall k, probe [] k = false).

(** ** Arrays reachable through the API, with the contents they should have

    [SparseArrayValue], which is a type of its own in the API, is written
    [ASparse s] here: [ArrayValue] forwards every call to it. *)
Inductive built (probe : probe_oracle) (ho : hash_order) (m : mode)
  : array -> N -> N -> (N -> N) -> Prop :=
| built_dense iw default a : wf default -> 0 < width default -> addressable iw (width default) ->
    array_new_dense m iw default = Ok a ->
    built probe ho m a iw (width default) (fun _ => uval default)
| built_sparse iw default a : wf default -> 0 < width default -> iw < 2 ^ 32 ->
    array_new_sparse m iw default = Ok a ->
    built probe ho m a iw (width default) (fun _ => uval default)
| built_bools l a : len l <= 2 ^ 31 -> array_from_bools m l = Ok a ->
    built probe ho m a (array_index_width a) 1 (fun i => if nth (N.to_nat i) l false then 1 else 0)
| built_u8s l a : Forall (fun x => x < 2 ^ 8) l -> len l <= 2 ^ 62 -> array_from_u8s m l = Ok a ->
    built probe ho m a (array_index_width a) 8 (fun i => nth (N.to_nat i) l 0)
| built_u64s l a : Forall (fun x => x < 2 ^ 64) l -> len l <= 2 ^ 59 -> array_from_u64s m l = Ok a ->
    built probe ho m a (array_index_width a) 64 (fun i => nth (N.to_nat i) l 0)
| built_step a iw dw f op a' : built probe ho m a iw dw f -> arr_legal iw dw op ->
    arr_run probe m a op = Ok a' -> built probe ho m a' iw dw (arr_step f op)
| built_make_dense a iw dw f a' : built probe ho m a iw dw f -> addressable iw dw ->
    array_make_dense ho m a = Ok a' -> built probe ho m a' iw dw f
| built_make_sparse a iw dw f s : built probe ho m a iw dw f ->
    sparse_of_array ho m a = Ok s -> built probe ho m (ASparse s) iw dw f
| built_reload order a iw dw f a' : built probe ho m a iw dw f -> reorders order ->
    de_array (ser_array order a) = Some a' -> built probe ho m a' iw dw f.

(** Number of indices at which the contents are [x]. *)
Definition occurrences (iw : N) (f : N -> N) (x : N) : N :=
  N.of_nat (length (filter (fun i => f (N.of_nat i) =? x) (seq 0 (N.to_nat (2 ^ iw))))).

(** The elements take at most [n] different values. *)
Definition few (n iw : N) (f : N -> N) : Prop :=
  exists vals, len vals <= n /\ forall i, i < 2 ^ iw -> In (f i) vals.

(** The two functions agree on all indices of width [iw]. *)
Definition same_contents (iw : N) (f g : N -> N) : Prop := forall i, i < 2 ^ iw -> f i = g i.

(** A dense array of this shape can be created in build profile [m]. *)
Definition fits_dense (m : mode) (iw dw : N) : Prop :=
  addressable iw dw /\ (m = Release \/ dense_bytes iw dw <= 2 ^ 30).
