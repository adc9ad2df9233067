(** * StoreSpec: indices into a shared word store, and histories of writes
    through them, for C32 - C36. *)

From Verif Require Import Base Bv Indexed Spec RegSpec.

(** An index names the words from [first i] up to, not including, [past i]. *)
Definition first (i : bvindex) : N := i_index i.
Definition past (i : bvindex) : N := i_index i + (i_width i + 63) / 64.

Definition in_range (store : list N) (i : bvindex) : Prop := past i <= len store.
Definition apart (i j : bvindex) : Prop := past i <= first j \/ past j <= first i.
Definition covers (i : bvindex) (p : N) : Prop := first i <= p < past i.

(** Histories: an in-place update of value [k], or a copy of value [src] to value
    [dst] with both borrowed at the same time. *)
Inductive store_op :=
| SUpdate (k : nat) (op : reg_op)
| SCopy (dst src : nat).

Definition index_at (is : list bvindex) (k : nat) : bvindex := nth k is (mkindex 0 0).

(** What the history does to an array of plain registers. *)
Definition set_reg (regs : nat -> N) (k : nat) (x : N) : nat -> N :=
  fun j => if Nat.eqb j k then x else regs j.
Definition store_step (is : list bvindex) (regs : nat -> N) (op : store_op) : nat -> N :=
  match op with
  | SUpdate k o => set_reg regs k (reg_step (i_width (index_at is k)) (regs k) o)
  | SCopy dst src => set_reg regs dst (regs src)
  end.

Definition store_legal (m : mode) (is : list bvindex) (op : store_op) : Prop :=
  match op with
  | SUpdate k o => (k < length is)%nat /\ reg_legal m (i_width (index_at is k)) o
  | SCopy dst src => (dst < length is)%nat /\ (src < length is)%nat /\ dst <> src
      /\ i_width (index_at is dst) = i_width (index_at is src)
  end.

(** The same, performed by the code. *)
Definition store_run (m : mode) (is : list bvindex) (store : list N) (op : store_op)
  : res (list N) :=
  match op with
  | SUpdate k o => update_ref store (index_at is k) (fun v => reg_run m v o)
  | SCopy dst src => update_ref_2 m store (index_at is dst) (index_at is src) (bv_assign m)
  end.
Fixpoint store_run_all (m : mode) (is : list bvindex) (store : list N) (ops : list store_op)
  : res (list N) :=
  match ops with
  | [] => Ok store
  | op :: rest => let* store' := store_run m is store op in store_run_all m is store' rest
  end.

(** ** Interner histories *)

(** [get_index] called for each value in turn: final interner and the indices. *)
Fixpoint intern_all (m : mode) (st : interner) (vs : list bv) : res (interner * list bvindex) :=
  match vs with
  | [] => Ok (st, [])
  | v :: rest =>
      let* (st1, i) := interner_get_index m st v in
      let* (st2, is) := intern_all m st1 rest in
      Ok (st2, i :: is)
  end.

(** The different values among [vs] that the interner has to store: of up to 64
    bits, except the constants 0 to 7 it starts with ... *)
Definition small_values (vs : list bv) : list N :=
  nodup N.eq_dec (map uval (filter (fun v => (width v <=? 64) && (8 <=? uval v)) vs)).
(** ... and wider ones, with the number of words they need. *)
Definition pair_eq_dec (p q : N * N) : {p = q} + {p <> q}.
Proof. decide equality; apply N.eq_dec. Defined.
Definition wide_values (vs : list bv) : list (N * N) :=
  nodup pair_eq_dec (map (fun v => ((width v + 63) / 64, uval v)) (filter (fun v => 64 <? width v) vs)).

(** Number of words needed to store each of them once, after the 8 constants. *)
Fixpoint sum_fst (l : list (N * N)) : N := match l with [] => 0 | p :: t => fst p + sum_fst t end.
Definition stored (vs : list bv) : N := 8 + len (small_values vs) + sum_fst (wide_values vs).
