(** * MachineSpec: programs over bit-vectors in a shared word store and arrays.

    A program is a list of instructions with conditional jumps.  [next] says what
    an instruction does to plain numbers and functions on numbers; [step] performs
    it with calls of the library. *)

From Verif Require Import Base Bv Map Indexed Array.
From Verif Require Import Spec RegSpec StoreSpec ArraySpec ExprSpec.

Inductive instr :=
| IAssign (dst : nat) (e : expr)          (* evaluate e, then assign through get_mut_ref(dst) *)
| IApply (dst a b : nat) (e : expr)       (* (d, x, y) = get_mut_ref((dst, a, b)); d.assign(e over x, y) *)
| IUpdate (dst : nat) (op : reg_op)       (* in-place update through get_mut_ref(dst) *)
| ICopy (dst src : nat)                   (* (d, x) = get_mut_ref((dst, src)); d.assign(x) *)
| ISelect (dst arr : nat) (index : expr)  (* assign arr.select(index) *)
| IStore (arr : nat) (index data : expr)  (* arr.store(index, data) *)
| IClear (arr : nat)                      (* arr.clear() *)
| IDense (arr : nat)                      (* arr.make_dense() *)
| IJump (target : nat) (cond : expr).     (* go on at target if cond.is_tru() *)

(** ** Meaning *)

(** A configuration: program counter, values of the registers, contents of the arrays. *)
Record conf := mkconf { c_pc : nat; c_regs : nat -> N; c_mems : nat -> N -> N }.

(** Variable [i] of an expression is register [i]; an index that is not in the
    list has width 0, so that no well-sorted expression mentions it. *)
Definition reg_widths (is : list bvindex) : N -> N := fun i => i_width (index_at is (N.to_nat i)).
Definition reg_values (regs : nat -> N) : N -> N := fun i => regs (N.to_nat i).
(** Variables 0 and 1 are [x] and [y]. *)
Definition pair_of (x y : N) : N -> N := fun i => if i =? 0 then x else if i =? 1 then y else 0.

Definition set_mem (mems : nat -> N -> N) (k : nat) (f : N -> N) : nat -> N -> N :=
  fun j => if Nat.eqb j k then f else mems j.

Definition value_of (is : list bvindex) (c : conf) (e : expr) : N :=
  meaning (reg_widths is) (reg_values (c_regs c)) e.
Definition value_of_2 (is : list bvindex) (c : conf) (a b : nat) (e : expr) : N :=
  meaning (pair_of (i_width (index_at is a)) (i_width (index_at is b)))
    (pair_of (c_regs c a) (c_regs c b)) e.

Definition next (is : list bvindex) (code : list instr) (c : conf) : conf :=
  let write k x := mkconf (S (c_pc c)) (set_reg (c_regs c) k x) (c_mems c) in
  let change k f := mkconf (S (c_pc c)) (c_regs c) (set_mem (c_mems c) k f) in
  match nth_error code (c_pc c) with
  | None => c
  | Some (IAssign dst e) => write dst (value_of is c e)
  | Some (IApply dst a b e) => write dst (value_of_2 is c a b e)
  | Some (IUpdate dst op) => write dst (reg_step (i_width (index_at is dst)) (c_regs c dst) op)
  | Some (ICopy dst src) => write dst (c_regs c src)
  | Some (ISelect dst arr index) => write dst (c_mems c arr (value_of is c index))
  | Some (IStore arr index data) =>
      change arr (fun n => if n =? value_of is c index then value_of is c data else c_mems c arr n)
  | Some (IClear arr) => change arr (fun _ => 0)
  | Some (IDense arr) => mkconf (S (c_pc c)) (c_regs c) (c_mems c)
  | Some (IJump target cond) =>
      mkconf (if value_of is c cond =? 1 then target else S (c_pc c)) (c_regs c) (c_mems c)
  end.

Fixpoint after (is : list bvindex) (code : list instr) (n : nat) (c : conf) : conf :=
  match n with O => c | S n' => next is code (after is code n' c) end.

(** ** Legal programs: operands have matching widths, registers and arrays exist,
    and the expressions avoid what C49 excludes. *)

Definition fine (ws vs : N -> N) (e : expr) (w : N) : Prop := typed ws e w /\ avoids ws vs e.

Definition shape_at (shapes : list (N * N)) (k : nat) : N * N := nth k shapes (0, 0).

Definition legal (m : mode) (is : list bvindex) (shapes : list (N * N)) (code : list instr)
  (c : conf) : Prop :=
  let reg k := (k < length is)%nat in
  let arr k := (k < length shapes)%nat in
  let w k := i_width (index_at is k) in
  let ok := fine (reg_widths is) (reg_values (c_regs c)) in
  match nth_error code (c_pc c) with
  | None => True
  | Some (IAssign dst e) => reg dst /\ ok e (w dst)
  | Some (IApply dst a b e) => reg dst /\ reg a /\ reg b /\ dst <> a /\ dst <> b
      /\ fine (pair_of (w a) (w b)) (pair_of (c_regs c a) (c_regs c b)) e (w dst)
  | Some (IUpdate dst op) => reg dst /\ reg_legal m (w dst) op
  | Some (ICopy dst src) => reg dst /\ reg src /\ dst <> src /\ w dst = w src
  | Some (ISelect dst k index) => reg dst /\ arr k /\ ok index (fst (shape_at shapes k))
      /\ w dst = snd (shape_at shapes k)
  | Some (IStore k index data) => arr k /\ ok index (fst (shape_at shapes k))
      /\ ok data (snd (shape_at shapes k))
  | Some (IClear k) => arr k
  | Some (IDense k) => arr k /\ fits_dense m (fst (shape_at shapes k)) (snd (shape_at shapes k))
      /\ (snd (shape_at shapes k) <= 64 \/ m = Release)
  | Some (IJump _ cond) => ok cond 1
  end.

(** ** Execution by the library *)

Record state := mkstate { s_pc : nat; s_store : list N; s_arrays : list array }.

(** all registers, borrowed *)
Fixpoint get_refs (store : list N) (is : list bvindex) : res (list bv) :=
  match is with
  | [] => Ok []
  | i :: rest => let* v := get_ref store i in let* vs := get_refs store rest in Ok (v :: vs)
  end.

Definition eval_in (m : mode) (store : list N) (is : list bvindex) (e : expr) : res bv :=
  let* vs := get_refs store is in
  evaluate m (fun i => nth (N.to_nat i) vs (bv_zero 0)) e.

Definition array_at (arrs : list array) (k : nat) : res array := unwrap (nth_error arrs k).
Definition set_array (arrs : list array) (k : nat) (a : array) : list array :=
  firstn k arrs ++ a :: skipn (S k) arrs.

Definition step (probe : probe_oracle) (ho : hash_order) (m : mode) (is : list bvindex)
  (code : list instr) (s : state) : res state :=
  let write (r : res (list N)) := let* st := r in Ok (mkstate (S (s_pc s)) st (s_arrays s)) in
  let change k (f : array -> res array) :=
    let* a := array_at (s_arrays s) k in let* a' := f a in
    Ok (mkstate (S (s_pc s)) (s_store s) (set_array (s_arrays s) k a')) in
  match nth_error code (s_pc s) with
  | None => Ok s
  | Some (IAssign dst e) =>
      let* v := eval_in m (s_store s) is e in
      write (update_ref (s_store s) (index_at is dst) (fun d => bv_assign m d v))
  | Some (IApply dst a b e) =>
      let* (dx, y) := get_mut_ref_3 m (s_store s) (index_at is dst) (index_at is a) (index_at is b) in
      let (d, x) := dx in
      let* v := evaluate m (fun i => if i =? 0 then x else y) e in
      let* d' := bv_assign m d v in
      write (Ok (splice (s_store s) (i_index (index_at is dst)) (words d')))
  | Some (IUpdate dst op) => write (update_ref (s_store s) (index_at is dst) (fun d => reg_run m d op))
  | Some (ICopy dst src) =>
      write (update_ref_2 m (s_store s) (index_at is dst) (index_at is src) (bv_assign m))
  | Some (ISelect dst k index) =>
      let* i := eval_in m (s_store s) is index in
      let* a := array_at (s_arrays s) k in
      let* v := array_select probe m a i in
      write (update_ref (s_store s) (index_at is dst) (fun d => bv_assign m d v))
  | Some (IStore k index data) =>
      let* i := eval_in m (s_store s) is index in
      let* d := eval_in m (s_store s) is data in
      change k (fun a => array_store probe m a i d)
  | Some (IClear k) => change k (fun a => Ok (array_clear a))
  | Some (IDense k) => change k (fun a => array_make_dense ho m a)
  | Some (IJump target cond) =>
      let* v := eval_in m (s_store s) is cond in
      let* t := bv_is_tru v in
      Ok (mkstate (if t then target else S (s_pc s)) (s_store s) (s_arrays s))
  end.

Fixpoint steps (probe : probe_oracle) (ho : hash_order) (m : mode) (is : list bvindex)
  (code : list instr) (n : nat) (s : state) : res state :=
  match n with
  | O => Ok s
  | S n' => let* s' := steps probe ho m is code n' s in step probe ho m is code s'
  end.

(** ** The state holds the numbers of a configuration *)

(** Registers lie inside the store, apart from each other. *)
Definition laid_out (is : list bvindex) (store : list N) : Prop :=
  (forall k, (k < length is)%nat -> 0 < i_width (index_at is k) /\ in_range store (index_at is k))
  /\ (forall j k, (j < length is)%nat -> (k < length is)%nat -> j <> k ->
        apart (index_at is j) (index_at is k)).

Definition holds_regs (is : list bvindex) (s : state) (c : conf) : Prop :=
  s_pc s = c_pc c
  /\ forall k, (k < length is)%nat ->
       yields (get_ref (s_store s) (index_at is k)) (i_width (index_at is k)) (c_regs c k).

(** The arrays were made by the API, with index widths up to 64 bits. *)
Definition made_arrays (probe : probe_oracle) (ho : hash_order) (m : mode) (shapes : list (N * N))
  (s : state) (c : conf) : Prop :=
  length (s_arrays s) = length shapes
  /\ forall k a, nth_error (s_arrays s) k = Some a ->
       fst (shape_at shapes k) <= 64
       /\ built probe ho m a (fst (shape_at shapes k)) (snd (shape_at shapes k)) (c_mems c k).

(** Every element can be read and is what it should be. *)
Definition holds_arrays (probe : probe_oracle) (m : mode) (shapes : list (N * N))
  (s : state) (c : conf) : Prop :=
  length (s_arrays s) = length shapes
  /\ forall k a, nth_error (s_arrays s) k = Some a ->
       arr_is probe m a (fst (shape_at shapes k)) (snd (shape_at shapes k)) (c_mems c k).
