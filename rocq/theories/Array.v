(** * Array: model of /repo/src/array/ops.rs and /repo/src/array/owned.rs *)

From Verif Require Import Base Arith Map Bv.

(** [==] between two [BitVecValue]s as used by HashMap keys and values: same
    width and same words (owned.rs(bv):121-126; its debug_assert cannot fail
    for vectors whose word count is determined by the width, which is the case
    for all keys and values of a map, see the widths asserted by [store]). *)
Definition bv_eqb (a b : bv) : bool :=
  (width a =? width b) && words_eqb (words a) (words b).

(** owned.rs:252-259 [DenseArrayImpl] *)
Inductive dense_impl :=
| DBit (v : bv)
| DU8 (l : list N)
| DU64 (l : list N)
| DBig (l : list N).

(** owned.rs:174-180 [DenseArrayValue] *)
Record dense := mkdense { d_iw : N; d_dw : N; d_data : dense_impl }.

(** owned.rs:587-593 [SparseArrayImpl] *)
Inductive sparse_impl :=
| SU64U64 (default : N) (map : list (N * N))
| SU64Big (default : bv) (map : list (N * bv))
| SBigBig (default : bv) (map : list (bv * bv)).

(** owned.rs:573-579 [SparseArrayValue] *)
Record sparse := mksparse { s_iw : N; s_dw : N; s_data : sparse_impl }.

(** owned.rs:13-25 [ArrayValue] / [ArrayImpl] *)
Inductive array := ASparse (s : sparse) | ADense (d : dense).

(** ops.rs(array):14-17 [words_per_element] *)
Definition words_per_element (dw : N) : N := div_ceil dw 64.

(** ops.rs(array):18-21 [num_elements] *)
Definition num_elements (m : mode) (iw : N) : res N := u64_shl1 m iw.

(** ** Dense arrays *)

(** owned.rs:188-195 [index_width_from_len]: 64 - leading_zeros(len - 1) *)
Definition index_width_from_len (l : N) : N := if l =? 0 then 0 else N.size (l - 1).

(** owned.rs:197-200 [num_elements_from_index_width] *)
Definition num_elements_from_index_width (m : mode) (iw : N) : res N := u64_shl1 m iw.

(** owned.rs:264-279 [approx_dense_storage_size] *)
Definition approx_dense_storage_size (m : mode) (iw dw : N) : res N :=
  let* elements := u64_shl1 m iw in
  if dw =? 1 then Ok (div_ceil elements 8)
  else if dw <=? 8 then Ok elements
  else if dw <=? 64 then usz_mul m elements 8
  else usz_mul m elements (div_ceil dw 64).

(** owned.rs:261-262 DENSE_ARRAY_MAX_BYTES *)
Definition DENSE_ARRAY_MAX_BYTES : N := 1024 * 1024 * 1024.

(** std: the capacity of a [Vec] is at most [isize::MAX] = 2^63 - 1 bytes, a larger
    one is a panic ("capacity overflow").  That the system has no memory left for a
    smaller one is not modelled. *)
Definition capacity (bytes : N) : res unit := if bytes <? 2 ^ 63 then Ok tt else Panic PCapacity.

(** owned.rs:282-317 [DenseArrayValue::new].  When the product in owned.rs:306 wraps
    in a release build, the vector starts with a small capacity and overflows it
    while it grows (owned.rs:307-309); the model panics at once. *)
Definition dense_new (m : mode) (iw : N) (default : bv) : res dense :=
  let dw := width default in
  let* storage_size := approx_dense_storage_size m iw dw in
  let* _ := debug_assert m (storage_size <=? DENSE_ARRAY_MAX_BYTES) in
  let* elements := u64_shl1 m iw in
  let* data :=
    (if dw =? 1 then
       let* t := bv_is_tru default in
       if t then
         let* v := bv_ones m (as_u32 elements) in Ok (DBit v)
       else
         let* _ := match m with
                   | Debug => let* f := bv_is_fals default in debug_assert m f
                   | Release => Ok tt
                   end in
         Ok (DBit (bv_zero (as_u32 elements)))
     else if dw <=? 8 then
       let* d := unwrap (bv_to_u64 default) in
       let* _ := capacity elements in
       Ok (DU8 (repeat (as_u8 d) (N.to_nat elements)))
     else if dw <=? 64 then
       let* d := unwrap (bv_to_u64 default) in
       let* _ := capacity (8 * elements) in
       Ok (DU64 (repeat d (N.to_nat elements)))
     else
       let* _ := usz_mul m elements (len (words default)) in
       let* _ := capacity (8 * (elements * len (words default))) in
       Ok (DBig (concat (repeat (words default) (N.to_nat elements))))) in
  Ok (mkdense iw dw data).

(** owned.rs:319-341 [DenseArrayValue::is_equal] *)
Definition dense_is_equal (m : mode) (self other : dense) : res (option bool) :=
  if negb (d_iw other =? d_iw self) || negb (d_dw other =? d_dw self) then Ok None
  else
    match d_data self, d_data other with
    | DBit a, DBit b => let* e := bv_is_equal m a b in Ok (Some e)
    | DU8 a, DU8 b => Ok (Some (words_eqb a b))
    | DU64 a, DU64 b => Ok (Some (words_eqb a b))
    | DBig a, DBig b => Ok (Some (words_eqb a b))
    | _, _ => Panic PUnreachable
    end.

(** owned.rs:343-357 [select_usize] *)
Definition dense_select_usize (m : mode) (self : dense) (index : N) : res bv :=
  match d_data self with
  | DBit value =>
      let* b := bv_is_bit_set value (as_u32 index) in bv_from_bool m b
  | DU8 values => let* v := idx values index in bv_from_u64 m v (d_dw self)
  | DU64 values => let* v := idx values index in bv_from_u64 m v (d_dw self)
  | DBig values =>
      let* start := usz_mul m (words_per_element (d_dw self)) index in
      let stop := start + words_per_element (d_dw self) in
      let* ws := range values start stop in
      Ok (mkbv (d_dw self) ws)
  end.

(** owned.rs:369-373 [select] *)
Definition dense_select (m : mode) (self : dense) (index : bv) : res bv :=
  let* _ := debug_assert m (width index =? d_iw self) in
  let* i := unwrap (bv_to_u64 index) in
  dense_select_usize m self i.

(** owned.rs:377-410 [store] *)
Definition dense_store (m : mode) (self : dense) (index data : bv) : res dense :=
  let* _ := debug_assert m (width index =? d_iw self) in
  let* i := unwrap (bv_to_u64 index) in
  let* _ := debug_assert m (width data =? d_dw self) in
  let dw := d_dw self in
  let wpe := words_per_element dw in
  let* new :=
    match d_data self with
    | DBit value =>
        let* t := bv_is_tru data in
        let* v := (if t then bv_set_bit value (as_u32 i) else bv_clear_bit value (as_u32 i)) in
        Ok (DBit v)
    | DU8 values =>
        let* x := unwrap (bv_to_u64 data) in
        let* l := set_idx values i (as_u8 x) in Ok (DU8 l)
    | DU64 values =>
        let* x := unwrap (bv_to_u64 data) in
        let* l := set_idx values i x in Ok (DU64 l)
    | DBig values =>
        let* start := usz_mul m wpe i in
        let stop := start + wpe in
        let* ws := range values start stop in
        let* v := bv_assign m (mkbv dw ws) data in
        Ok (DBig (splice values start (words v)))
    end in
  Ok (mkdense (d_iw self) dw new).

(** owned.rs:412-419 [clear] *)
Definition dense_clear (self : dense) : dense :=
  mkdense (d_iw self) (d_dw self)
    (match d_data self with
     | DBit v => DBit (bv_clear v)
     | DU8 l => DU8 (map (fun _ => 0) l)
     | DU64 l => DU64 (map (fun _ => 0) l)
     | DBig l => DBig (map (fun _ => 0) l)
     end).

(** [Vec::resize(n, 0)] *)
Definition resize (l : list N) (n : N) : list N :=
  firstn (N.to_nat n) l ++ repeat 0 (N.to_nat n - length l).

(** owned.rs:202-218 [From<&[bool]> for DenseArrayValue] *)
Fixpoint set_bits (values : list bool) (ii : N) (data : bv) : res bv :=
  match values with
  | [] => Ok data
  | v :: rest =>
      let* data := (if v then bv_set_bit data (as_u32 ii) else Ok data) in
      set_bits rest (ii + 1) data
  end.
Definition dense_from_bools (m : mode) (values : list bool) : res dense :=
  let iw := index_width_from_len (len values) in
  let* n := num_elements_from_index_width m iw in
  let* data := set_bits values 0 (bv_zero (as_u32 n)) in
  Ok (mkdense iw 1 (DBit data)).

(** owned.rs:220-234 [From<&[u8]> for DenseArrayValue] *)
Definition dense_from_u8s (m : mode) (values : list N) : res dense :=
  let iw := index_width_from_len (len values) in
  let* n := num_elements_from_index_width m iw in
  let* _ := capacity n in
  Ok (mkdense iw 8 (DU8 (resize values n))).

(** owned.rs:236-250 [From<&[u64]> for DenseArrayValue] *)
Definition dense_from_u64s (m : mode) (values : list N) : res dense :=
  let iw := index_width_from_len (len values) in
  let* n := num_elements_from_index_width m iw in
  let* _ := capacity (8 * n) in
  Ok (mkdense iw 64 (DU64 (resize values n))).

(** ** Sparse arrays *)

(** owned.rs:596-611 [SparseArrayValue::new] *)
Definition sparse_new (m : mode) (iw : N) (default : bv) : res sparse :=
  let dw := width default in
  let* data :=
    (if 64 <? iw then Ok (SBigBig (bv_owned_of_ref default) [])
     else if 64 <? dw then Ok (SU64Big (bv_owned_of_ref default) [])
     else let* d := unwrap (bv_to_u64 default) in Ok (SU64U64 d [])) in
  Ok (mksparse iw dw data).

(** owned.rs:613-659 [SparseArrayValue::is_equal] *)
Definition sparse_is_equal (m : mode) (self other : sparse) : res (option bool) :=
  if negb (s_iw other =? s_iw self) || negb (s_dw other =? s_dw self) then Ok None
  else
    match s_data self, s_data other with
    | SU64U64 da ma, SU64U64 db mb =>
        Ok (Some (if da =? db then
                    if len ma =? len mb then hm_eqb N.eqb N.eqb ma mb else false
                  else false))
    | SU64Big da ma, SU64Big db mb =>
        let* e := bv_eq m da db in
        Ok (Some (if e then
                    if len ma =? len mb then hm_eqb N.eqb bv_eqb ma mb else false
                  else false))
    | SBigBig da ma, SBigBig db mb =>
        let* e := bv_eq m da db in
        Ok (Some (if e then
                    if len ma =? len mb then hm_eqb bv_eqb bv_eqb ma mb else false
                  else false))
    | _, _ => Panic PUnreachable
    end.

(** owned.rs:661-667 [default] *)
Definition sparse_default (m : mode) (self : sparse) : res bv :=
  match s_data self with
  | SU64U64 d _ => bv_from_u64 m d (s_dw self)
  | SU64Big d _ => Ok d
  | SBigBig d _ => Ok d
  end.

(** owned.rs:669-681 [store_u64_u64] *)
Definition sparse_store_u64_u64 (self : sparse) (index data : N) : res sparse :=
  match s_data self with
  | SU64U64 d map =>
      Ok (mksparse (s_iw self) (s_dw self)
            (SU64U64 d (if data =? d then hm_remove N.eqb map index
                        else hm_insert N.eqb map index data)))
  | _ => Panic PExplicit
  end.

(** owned.rs:683-707 [store_u64_big] *)
Definition sparse_store_u64_big (m : mode) (self : sparse) (index : N) (data : bv)
  : res sparse :=
  match s_data self with
  | SU64U64 d map =>
      let* x := unwrap (bv_to_u64 data) in
      Ok (mksparse (s_iw self) (s_dw self)
            (SU64U64 d (if x =? d then hm_remove N.eqb map index
                        else hm_insert N.eqb map index x)))
  | SU64Big d map =>
      let* e := bv_is_equal m data d in
      Ok (mksparse (s_iw self) (s_dw self)
            (SU64Big d (if e then hm_remove N.eqb map index
                        else hm_insert N.eqb map index (bv_owned_of_ref data))))
  | SBigBig _ _ => Panic PExplicit
  end.

(** [map.get(&index)] / [map.remove(&index)] on a [HashMap<BitVecValue, _>] with
    a borrowed key (owned.rs:788, 828).  The key type is borrowed through
    [Borrow<BitVecValueRef> for BitVecValue], which is [todo!()]
    (borrowed.rs:95-99).  The table calls it for each stored key that the probe
    sequence meets with a matching hash tag; if there is none, the result is
    [None] / nothing is removed.  [probe keys index] says whether one is met:
    it depends on the random state of the hasher, but is always true when a
    stored key equals [index] and always false for an empty table. *)
Definition probe_oracle := list bv -> bv -> bool.
Definition hm_get_borrowed (probe : probe_oracle) (map : list (bv * bv)) (index : bv)
  : res (option bv) :=
  if probe (List.map fst map) index then Panic PTodo else Ok None.
Definition hm_remove_borrowed (probe : probe_oracle) (map : list (bv * bv)) (index : bv)
  : res (list (bv * bv)) :=
  if probe (List.map fst map) index then Panic PTodo else Ok map.

(** owned.rs:773-792 [select] *)
Definition sparse_select (probe : probe_oracle) (m : mode) (self : sparse) (index : bv)
  : res bv :=
  let* _ := debug_assert m (width index =? s_iw self) in
  match s_data self with
  | SU64U64 d map =>
      let* i := unwrap (bv_to_u64 index) in
      let value := unwrap_or (hm_get N.eqb map i) d in
      bv_from_u64 m value (s_dw self)
  | SU64Big d map =>
      let* i := unwrap (bv_to_u64 index) in
      Ok (unwrap_or (hm_get N.eqb map i) d)
  | SBigBig d map =>
      let* o := hm_get_borrowed probe map index in
      Ok (unwrap_or o d)
  end.

(** owned.rs:796-834 [store] *)
Definition sparse_store (probe : probe_oracle) (m : mode) (self : sparse) (index data : bv)
  : res sparse :=
  let* _ := debug_assert m (width index =? s_iw self) in
  let* _ := debug_assert m (width data =? s_dw self) in
  let* new :=
    match s_data self with
    | SU64U64 d map =>
        let* i := unwrap (bv_to_u64 index) in
        let* x := unwrap (bv_to_u64 data) in
        Ok (SU64U64 d (if x =? d then hm_remove N.eqb map i else hm_insert N.eqb map i x))
    | SU64Big d map =>
        let* i := unwrap (bv_to_u64 index) in
        let* e := bv_is_equal m data d in
        Ok (SU64Big d (if e then hm_remove N.eqb map i
                       else hm_insert N.eqb map i (bv_owned_of_ref data)))
    | SBigBig d map =>
        let* e := bv_is_equal m data d in
        if e then
          let* map := hm_remove_borrowed probe map index in Ok (SBigBig d map)
        else Ok (SBigBig d (hm_insert bv_eqb map (bv_owned_of_ref index) (bv_owned_of_ref data)))
    end in
  Ok (mksparse (s_iw self) (s_dw self) new).

(** owned.rs:836-851 [clear] *)
Definition sparse_clear (self : sparse) : sparse :=
  mksparse (s_iw self) (s_dw self)
    (match s_data self with
     | SU64U64 _ _ => SU64U64 0 []
     | SU64Big _ _ => SU64Big (bv_zero (s_dw self)) []
     | SBigBig _ _ => SBigBig (bv_zero (s_dw self)) []
     end).

(** owned.rs:709-724 [non_default_entries] and owned.rs:739-764 [next]: the
    items produced by running the iterator to its end *)
Definition sparse_entries (ho : hash_order) (m : mode) (self : sparse)
  : res (list (bv * bv)) :=
  match s_data self with
  | SU64U64 _ map =>
      mapM (fun kv : N * N =>
              let* i := bv_from_u64 m (fst kv) (s_iw self) in
              let* v := bv_from_u64 m (snd kv) (s_dw self) in
              Ok (i, v)) (ho _ map)
  | SU64Big _ map =>
      mapM (fun kv : N * bv =>
              let* i := bv_from_u64 m (fst kv) (s_iw self) in
              Ok (i, snd kv)) (ho _ map)
  | SBigBig _ map => Ok (ho _ map)
  end.

(** ** Conversions *)

(** owned.rs:429-449: one step of the loop for U64U64 *)
Definition densify_step_u64 (data : dense_impl) (kv : N * N) (m : mode) : res dense_impl :=
  let (index, v) := kv in
  match data with
  | DBit value =>
      if v =? 1 then
        let* b := bv_set_bit value (as_u32 index) in Ok (DBit b)
      else
        let* _ := debug_assert m (v =? 0) in
        let* b := bv_clear_bit value (as_u32 index) in Ok (DBit b)
  | DU8 values => let* l := set_idx values index (as_u8 v) in Ok (DU8 l)
  | DU64 values => let* l := set_idx values index v in Ok (DU64 l)
  | DBig _ => Panic PUnreachable
  end.

(** owned.rs:453-456: one step of the loop for U64Big; the state is the dense
    array and [index_bv] *)
Definition densify_step_big (m : mode) (st : dense * bv) (kv : N * bv) : res (dense * bv) :=
  let (d, index_bv) := st in
  let* index_bv := bv_assign_from_u64 m index_bv (fst kv) in
  let* d := dense_store m d index_bv (snd kv) in
  Ok (d, index_bv).

(** owned.rs:422-466 [From<&SparseArrayValue> for DenseArrayValue]; note
    [index_bv] is created with the data width (owned.rs:452) *)
Definition dense_of_sparse (ho : hash_order) (m : mode) (value : sparse) : res dense :=
  let* def := sparse_default m value in
  let* d := dense_new m (s_iw value) def in
  let* _ := debug_assert m (s_dw value =? d_dw d) in
  let* _ := debug_assert m (s_iw value =? d_iw d) in
  match s_data value with
  | SU64U64 _ map =>
      let* data := foldM (fun dd kv => densify_step_u64 dd kv m) (ho _ map) (d_data d) in
      Ok (mkdense (d_iw d) (d_dw d) data)
  | SU64Big _ map =>
      let* (d, _) := foldM (densify_step_big m) (ho _ map) (d, bv_zero (s_dw value)) in
      Ok d
  | SBigBig _ _ => Panic PUnreachable
  end.

(** [0..num_elements] *)
Definition indices (n : N) : list N := map N.of_nat (seq 0 (N.to_nat n)).

(** owned.rs:468 MAX_HASH_TABLE_SIZE_FOR_DEFAULT_SEARCH *)
Definition MAX_HASH_TABLE_SIZE : N := 1024 * 1024.

(** owned.rs:474-478: counting zeros and ones; [count[i] += 1] *)
Definition bump (count : list N) (i : N) : res (list N) :=
  let* c := idx count i in set_idx count i (c + 1).

(** [*count.entry(x).or_insert(0) += 1] (owned.rs:518, 546) *)
Definition hm_bump {K} (eqb : K -> K -> bool) (count : list (K * N)) (x : K) : list (K * N) :=
  hm_insert eqb count x (unwrap_or (hm_get eqb count x) 0 + 1).

(** owned.rs:517-524: counting loop with early exit *)
Fixpoint count_u64 (data : list N) (count : list (N * N)) : list (N * N) :=
  match data with
  | [] => count
  | x :: rest =>
      let count := hm_bump N.eqb count x in
      if MAX_HASH_TABLE_SIZE <? len count then count else count_u64 rest count
  end.

(** owned.rs:544-552: the same over [select_usize] *)
Fixpoint count_big (m : mode) (a : dense) (bits : list N) (count : list (bv * N))
  : res (list (bv * N)) :=
  match bits with
  | [] => Ok count
  | bit :: rest =>
      let* v := dense_select_usize m a bit in
      let count := hm_bump bv_eqb count v in
      if MAX_HASH_TABLE_SIZE <? len count then Ok count else count_big m a rest count
  end.

(** [iter.enumerate()] *)
Definition enumerate {A} (l : list A) : list (N * A) := combine (indices (len l)) l.

(** [b as u64] *)
Definition bool_as_u64 (b : bool) : N := if b then 1 else 0.

(** owned.rs:470-571 [From<&DenseArrayValue> for SparseArrayValue].  The count
    array of the U8 case has u8::BITS = 8 entries (owned.rs:493). *)
Definition sparse_of_dense (ho : hash_order) (m : mode) (value : dense) : res sparse :=
  match d_data value with
  | DBit data =>
      let* n := num_elements m (d_iw value) in
      let* count := foldM (fun c bit =>
                             let* b := bv_is_bit_set data (as_u32 bit) in
                             bump c (bool_as_u64 b)) (indices n) [0; 0] in
      let* c1 := idx count 1 in
      let* c0 := idx count 0 in
      let default := c0 <? c1 in
      let* bv_default := bv_from_bool m default in
      let* out := sparse_new m (d_iw value) bv_default in
      foldM (fun out bit =>
               let* b := bv_is_bit_set data (as_u32 bit) in
               if Bool.eqb b default then Ok out
               else sparse_store_u64_u64 out bit (bool_as_u64 (negb default)))
            (indices n) out
  | DU8 data =>
      let* n := num_elements m (d_iw value) in
      let* count := foldM (fun c bit => let* x := idx data bit in bump c x)
                          (indices n) (repeat 0 8) in
      let* (ii, _) := unwrap (max_by_key (@snd N N) (enumerate count)) in
      let default := as_u8 ii in
      let* bv_default := bv_from_u64 m default (d_dw value) in
      let* out := sparse_new m (d_iw value) bv_default in
      foldM (fun out (kv : N * N) =>
               let (bit, x) := kv in
               if x =? default then Ok out else sparse_store_u64_u64 out bit x)
            (enumerate data) out
  | DU64 data =>
      let count := count_u64 data [] in
      let* (default, _) := unwrap (max_by_key (@snd N N) (ho _ count)) in
      let* bv_default := bv_from_u64 m default (d_dw value) in
      let* out := sparse_new m (d_iw value) bv_default in
      foldM (fun out (kv : N * N) =>
               let (bit, x) := kv in
               if x =? default then Ok out else sparse_store_u64_u64 out bit x)
            (enumerate data) out
  | DBig _ =>
      let* n := num_elements m (d_iw value) in
      let* count := count_big m value (indices n) [] in
      let* (default, _) := unwrap (max_by_key (@snd bv N) (ho _ count)) in
      let* out := sparse_new m (d_iw value) default in
      foldM (fun out bit =>
               let* v := dense_select_usize m value bit in
               let* e := bv_eq m v default in
               if e then Ok out else sparse_store_u64_big m out bit v)
            (indices n) out
  end.

(** ** ArrayValue *)

(** owned.rs:37-40 [new_dense], owned.rs:41-44 [new_sparse] *)
Definition array_new_dense (m : mode) (iw : N) (default : bv) : res array :=
  let* d := dense_new m iw default in Ok (ADense d).
Definition array_new_sparse (m : mode) (iw : N) (default : bv) : res array :=
  let* s := sparse_new m iw default in Ok (ASparse s).

(** owned.rs:46-52 [is_dense], [is_sparse] *)
Definition array_is_dense (a : array) : bool := match a with ADense _ => true | _ => false end.
Definition array_is_sparse (a : array) : bool := match a with ASparse _ => true | _ => false end.

(** owned.rs:54-68 [make_dense] *)
Definition array_make_dense (ho : hash_order) (m : mode) (a : array) : res array :=
  match a with
  | ADense _ => Ok a
  | ASparse s => let* d := dense_of_sparse ho m s in Ok (ADense d)
  end.

(** owned.rs:120-129 [is_equal_mixed] *)
Definition is_equal_mixed (ho : hash_order) (m : mode) (d : dense) (s : sparse)
  : res (option bool) :=
  if negb (d_iw d =? s_iw s) || negb (d_dw d =? s_dw s) then Ok None
  else
    let* other_dense := dense_of_sparse ho m s in
    dense_is_equal m other_dense d.

(** owned.rs:70-78 [ArrayValue::is_equal] *)
Definition array_is_equal (ho : hash_order) (m : mode) (self other : array)
  : res (option bool) :=
  match self, other with
  | ADense a, ADense b => dense_is_equal m a b
  | ASparse a, ASparse b => sparse_is_equal m a b
  | ASparse a, ADense b => is_equal_mixed ho m b a
  | ADense a, ASparse b => is_equal_mixed ho m a b
  end.

(** owned.rs:114-118 [PartialEq] *)
Definition array_eq (ho : hash_order) (m : mode) (self other : array) : res bool :=
  let* o := array_is_equal ho m self other in Ok (unwrap_or o false).

(** owned.rs:81-103 [From<&[bool]>], [From<&[u8]>], [From<&[u64]>] *)
Definition array_from_bools (m : mode) (l : list bool) : res array :=
  let* d := dense_from_bools m l in Ok (ADense d).
Definition array_from_u8s (m : mode) (l : list N) : res array :=
  let* d := dense_from_u8s m l in Ok (ADense d).
Definition array_from_u64s (m : mode) (l : list N) : res array :=
  let* d := dense_from_u64s m l in Ok (ADense d).

(** owned.rs:105-112 [From<ArrayValue> for SparseArrayValue] *)
Definition sparse_of_array (ho : hash_order) (m : mode) (a : array) : res sparse :=
  match a with
  | ASparse s => Ok s
  | ADense d => sparse_of_dense ho m d
  end.

(** owned.rs:131-152 [index_width], [data_width], [select] *)
Definition array_index_width (a : array) : N :=
  match a with ASparse v => s_iw v | ADense v => d_iw v end.
Definition array_data_width (a : array) : N :=
  match a with ASparse v => s_dw v | ADense v => d_dw v end.
Definition array_select (probe : probe_oracle) (m : mode) (a : array) (index : bv) : res bv :=
  match a with
  | ASparse v => sparse_select probe m v index
  | ADense v => dense_select m v index
  end.

(** owned.rs:154-172 [store], [clear] *)
Definition array_store (probe : probe_oracle) (m : mode) (a : array) (index data : bv)
  : res array :=
  match a with
  | ASparse v => let* v' := sparse_store probe m v index data in Ok (ASparse v')
  | ADense v => let* v' := dense_store m v index data in Ok (ADense v')
  end.
Definition array_clear (a : array) : array :=
  match a with
  | ASparse v => ASparse (sparse_clear v)
  | ADense v => ADense (dense_clear v)
  end.

(** ** lib.rs:10-37 [Value] and its [TryFrom] conversions ([None] is [Err(())]) *)
Inductive value := VArray (a : array) | VBitVec (v : bv).
Definition array_try_from (v : value) : option array :=
  match v with VArray a => Some a | VBitVec _ => None end.
Definition bv_try_from (v : value) : option bv :=
  match v with VBitVec b => Some b | VArray _ => None end.

(** lib.rs:11 derived [PartialEq]: same variant and equal payloads *)
Definition value_eq (ho : hash_order) (m : mode) (a b : value) : res bool :=
  match a, b with
  | VArray x, VArray y => array_eq ho m x y
  | VBitVec x, VBitVec y => bv_eq m x y
  | _, _ => Ok false
  end.
