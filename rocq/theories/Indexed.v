(** * Indexed: model of /repo/src/bv/indexed.rs *)

From Verif Require Import Base Arith Map Bv.

(** indexed.rs:15-20 [BitVecValueIndex]; [WordIndex = u32] (indexed.rs:13) *)
Record bvindex := mkindex { i_width : N; i_index : N }.

(** indexed.rs:23-26 [BitVecValueIndex::new(index, width)] *)
Definition index_new (index w : N) : bvindex := mkindex w index.

(** indexed.rs:28-31 [words] *)
Definition index_words (i : bvindex) : N := div_ceil (i_width i) 64.

(** indexed.rs:33-38 [to_range]: (start, end) *)
Definition index_range (i : bvindex) : N * N :=
  let start := i_index i in (start, start + index_words i).

(** indexed.rs:51-61 [get_ref] for one index *)
Definition get_ref (store : list N) (i : bvindex) : res bv :=
  let (s, e) := index_range i in
  let* ws := range store s e in Ok (mkbv (i_width i) ws).

(** indexed.rs:63-79 [get_ref] for two indices *)
Definition get_ref_2 (store : list N) (a b : bvindex) : res (bv * bv) :=
  let* ra := get_ref store a in
  let* rb := get_ref store b in
  Ok (ra, rb).

(** indexed.rs:86-96 [get_mut_ref] for one index: the view handed out *)
Definition get_mut_ref (store : list N) (i : bvindex) : res bv := get_ref store i.

(** The effect on the store of mutating, with [f], the view of index [i]
    (not a function of the code: it spells out what a [&mut] view means). *)
Definition update_ref (store : list N) (i : bvindex) (f : bv -> res bv) : res (list N) :=
  let* v := get_mut_ref store i in
  let* v' := f v in
  Ok (splice store (i_index i) (words v')).

(** [slice::split_at_mut]: panics when [mid] is beyond the end *)
Definition split_at_mut (l : list N) (mid : N) : res (list N * list N) :=
  if mid <=? len l then Ok (firstn (N.to_nat mid) l, skipn (N.to_nat mid) l)
  else Panic PIndex.

(** indexed.rs:179-185 [move_range] *)
Definition move_range (m : mode) (rng : N * N) (offset : N) : res (N * N) :=
  let* s := usz_sub m (fst rng) offset in
  let* e := usz_sub m (snd rng) offset in
  Ok (s, e).

(** indexed.rs:171-175 (and 197-206): where the source words are taken from *)
Definition borrow_src (m : mode) (before_dst after_dst : list N) (after_dst_offset : N)
  (src : N * N) : res (list N) :=
  if after_dst_offset <=? fst src then
    let* r := move_range m src after_dst_offset in
    range after_dst (fst r) (snd r)
  else range before_dst (fst src) (snd src).

(** indexed.rs:162-177 [split_borrow_1]: destination words and source words *)
Definition split_borrow_1 (m : mode) (data : list N) (dst src : N * N)
  : res (list N * list N) :=
  let* (before_dst, after_dst_start) := split_at_mut data (fst dst) in
  let* n := usz_sub m (snd dst) (fst dst) in
  let* (dst_words, after_dst) := split_at_mut after_dst_start n in
  let after_dst_offset := snd dst in
  let* src_words := borrow_src m before_dst after_dst after_dst_offset src in
  Ok (dst_words, src_words).

(** indexed.rs:187-208 [split_borrow_2] *)
Definition split_borrow_2 (m : mode) (data : list N) (dst src_a src_b : N * N)
  : res (list N * list N * list N) :=
  let* (before_dst, after_dst_start) := split_at_mut data (fst dst) in
  let* n := usz_sub m (snd dst) (fst dst) in
  let* (dst_words, after_dst) := split_at_mut after_dst_start n in
  let after_dst_offset := snd dst in
  let* a_words := borrow_src m before_dst after_dst after_dst_offset src_a in
  let* b_words := borrow_src m before_dst after_dst after_dst_offset src_b in
  Ok (dst_words, a_words, b_words).

(** indexed.rs:98-116 [get_mut_ref] for (destination, source) *)
Definition get_mut_ref_2 (m : mode) (store : list N) (a b : bvindex) : res (bv * bv) :=
  let* (aw, bw) := split_borrow_1 m store (index_range a) (index_range b) in
  Ok (mkbv (i_width a) aw, mkbv (i_width b) bw).

(** indexed.rs:118-160 [get_mut_ref] for (destination, source, source) *)
Definition get_mut_ref_3 (m : mode) (store : list N) (a b c : bvindex)
  : res (bv * bv * bv) :=
  let* (awbw, cw) :=
    split_borrow_2 m store (index_range a) (index_range b) (index_range c) in
  let (aw, bw) := awbw in
  Ok (mkbv (i_width a) aw, mkbv (i_width b) bw, mkbv (i_width c) cw).

(** Effect on the store of mutating the destination view of [get_mut_ref_2]. *)
Definition update_ref_2 (m : mode) (store : list N) (a b : bvindex) (f : bv -> bv -> res bv)
  : res (list N) :=
  let* (va, vb) := get_mut_ref_2 m store a b in
  let* v' := f va vb in
  Ok (splice store (i_index a) (words v')).

(** ** ValueInterner *)

(** indexed.rs:212-217 [ValueInterner] *)
Record interner := mkinterner {
  in_words : list N;
  in_small : list (N * N);
  in_large : list (list N * N)
}.

(** indexed.rs:237-247 [new] *)
Definition interner_new : interner := mkinterner [0; 1; 2; 3; 4; 5; 6; 7] [] [].

(** indexed.rs:249-251 [is_zero], indexed.rs:253-255 [is_one] *)
Definition interner_is_zero (i : bvindex) : bool := i_index i =? 0.
Definition interner_is_one (i : bvindex) : bool := i_index i =? 1.

(** indexed.rs:257-283 [get_index] *)
Definition interner_get_index (m : mode) (st : interner) (value : bv)
  : res (interner * bvindex) :=
  let w := width value in
  match words value with
  | [word] =>
      let* _ := debug_assert m (w <=? 64) in
      if word <? 8 then Ok (st, index_new (as_u32 word) w)
      else
        match hm_get N.eqb (in_small st) word with
        | Some index => Ok (st, index_new index w)
        | None =>
            let index := as_u32 (len (in_words st)) in
            Ok (mkinterner (in_words st ++ [word])
                           (hm_insert N.eqb (in_small st) word index)
                           (in_large st),
                index_new index w)
        end
  | ws =>
      let* _ := debug_assert m (64 <? w) in
      match hm_get words_eqb (in_large st) ws with
      | Some index => Ok (st, index_new index w)
      | None =>
          let index := as_u32 (len (in_words st)) in
          Ok (mkinterner (in_words st ++ ws)
                         (in_small st)
                         (hm_insert words_eqb (in_large st) ws index),
              index_new index w)
      end
  end.

(** indexed.rs:285-287 [words] *)
Definition interner_words (st : interner) : list N := in_words st.
