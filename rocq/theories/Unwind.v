(** * Unwind: the calls that change a value in place, statement by statement

    The other model files render a call on [&mut self] as a function from the old
    to the new value, and a panic as the absence of a result.  But a panic that is
    caught ([std::panic::catch_unwind]) or seen by another thread leaves the value
    behind as the call had changed it up to then.  This file models the same
    functions once more as sequences of statements that read and write the value,
    so that the value left behind is known.  PUnwind.v proves that they return and
    panic exactly like the functions of the other files.

    The state is what [&mut self] refers to; for bit-vectors these are the words,
    the width is never written. *)

From Verif Require Import Base Arith Strings Map Bv Array Indexed.

(** How a call ends: it returns [a], or unwinds with a panic; [s] is the state. *)
Inductive ending (S A : Type) :=
| Returned (s : S) (a : A)
| Unwound (s : S) (p : panic).
Arguments Returned {S A} s a.
Arguments Unwound {S A} s p.

Definition eff (S A : Type) := S -> ending S A.

Definition ret {S A} (a : A) : eff S A := fun s => Returned s a.
Definition seq_ {S A B} (e : eff S A) (k : A -> eff S B) : eff S B :=
  fun s => match e s with Returned s' a => k a s' | Unwound s' p => Unwound s' p end.
Notation "'do' x <- e ;; k" := (seq_ e (fun x => k))
  (at level 200, x pattern, e at level 100, k at level 200, right associativity).

(** a computation that reads the state and writes nothing *)
Definition look {S A} (f : S -> res A) : eff S A :=
  fun s => match f s with Ok a => Returned s a | Panic p => Unwound s p end.
(** a single assignment: if the place or the new value cannot be computed, nothing is written *)
Definition write {S} (f : S -> res S) : eff S unit :=
  fun s => match f s with Ok s' => Returned s' tt | Panic p => Unwound s p end.
(** statements that cannot panic *)
Definition modify {S} (f : S -> S) : eff S unit := fun s => Returned (f s) tt.
(** a call on a part of the state, [&mut self.part] *)
Definition inside {S T A} (put : T -> S) (t : T) (e : eff T A) : eff S A :=
  fun _ => match e t with
           | Returned t' a => Returned (put t') a
           | Unwound t' p => Unwound (put t') p
           end.

(** ** Bit-vectors: the state is [words_mut()] *)

(** arithmetic.rs:78-83 [mask_msb] *)
Definition un_mask_msb (m : mode) (width : N) : eff (list N) unit :=
  do _ <- look (fun dst => debug_assert m (div_ceil width 64 =? len dst)) ;;
  do k <- look (fun _ => ar_mask (width mod 64)) ;;
  write (map_last (fun w => N.land w k)).

(** arithmetic.rs:53-76 [sign_extend] *)
Definition un_sign_extend (m : mode) (source : list N) (src_width dst_width : N)
  : eff (list N) unit :=
  do _ <- modify (fun dst => ar_assign dst source) ;;
  do neg <- look (fun _ => ar_is_neg m source src_width) ;;
  if neg then
    let lsbs_in_msb := src_width mod 64 in
    do _ <- (if 0 <? lsbs_in_msb then
               do k <- look (fun _ => ar_mask (64 - lsbs_in_msb)) ;;
               write (fun dst => let* old := idx dst (len source - 1) in
                                 set_idx dst (len source - 1) (N.lor old (wshl k lsbs_in_msb)))
             else ret tt) ;;
    do _ <- write (fun dst => on_tail dst (len source) ar_set) ;;
    un_mask_msb m dst_width
  else write (fun dst => on_tail dst (len source) ar_clear).

(** arithmetic.rs:344-354 [negate_in_place] *)
Definition un_negate_in_place (m : mode) (width : N) : eff (list N) unit :=
  do _ <- modify (ar_negate_loop 1) ;;
  un_mask_msb m width.

(** ops.rs:392-397 [assign] ([w]: the width of [self]) *)
Definition un_assign (m : mode) (w : N) (value : bv) : eff (list N) unit :=
  do _ <- look (fun _ => debug_assert m (w =? width value)) ;;
  do _ <- look (fun ws => debug_assert m (len ws =? len (words value))) ;;
  do _ <- look (fun ws => assert (len ws =? len (words value))) ;;
  modify (fun _ => words value).

(** ops.rs:405-410 [clear] *)
Definition un_clear : eff (list N) unit := modify (map (fun _ => 0)).

(** ops.rs:412-419 [assign_ones] *)
Definition un_assign_ones (m : mode) (w : N) : eff (list N) unit :=
  do _ <- modify (map (fun _ => WMAX)) ;;
  un_mask_msb m w.

(** ops.rs:421-435 [assign_from_u64] *)
Definition un_assign_from_u64 (m : mode) (w value : N) : eff (list N) unit :=
  do _ <- un_clear ;;
  do _ <- write (fun ws => set_idx ws 0 value) ;;
  do _ <- un_mask_msb m w ;;
  look (fun ws => let* w0 := match m with Debug => idx ws 0 | Release => Ok value end in
                  debug_assert m (w0 =? value)).

(** ops.rs:437-479 [assign_from_i64] *)
Definition un_assign_from_i64 (m : mode) (w : N) (value : Z) : eff (list N) unit :=
  do _ <- un_clear ;;
  do n <- look (fun ws => Ok (len ws)) ;;
  do _ <- (if n =? 1 then
             do k <- look (fun _ => ar_mask w) ;;
             write (fun ws => set_idx ws 0 (N.land (i64_as_u64 value) k))
           else un_sign_extend m [i64_as_u64 value] 64 w) ;;
  match m with
  | Release => ret tt
  | Debug =>
      do neg <- look (fun ws => ar_is_neg m ws w) ;;
      do w0 <- look (fun ws => idx ws 0) ;;
      if neg then
        if w <? 64 then
          do k <- look (fun _ => ar_mask (64 - w)) ;;
          look (fun _ => debug_assert m (N.lor w0 (wshl k w) =? i64_as_u64 value))
        else look (fun _ => debug_assert m (w0 =? i64_as_u64 value))
      else look (fun _ => debug_assert m (w0 =? i64_as_u64 value))
  end.

(** ops.rs:486-492 [set_bit], [clear_bit] *)
Definition un_set_bit (pos : N) : eff (list N) unit := write (fun ws => ar_set_bit ws pos).
Definition un_clear_bit (pos : N) : eff (list N) unit := write (fun ws => ar_clear_bit ws pos).

(** strings.rs:355-376: loop and epilogue of [parse_base_2]; the state is [out],
    the result [Err] ([Some]) or [Ok] ([None]) *)
Fixpoint un_parse_base_2_loop (m : mode) (width : N) (digits : list N) (ii out_ii word : N)
  : eff (list N) (option int_error_kind) :=
  match digits with
  | [] =>
      do _ <- look (fun _ => debug_assert m (out_ii =? 0)) ;;
      do _ <- write (fun out => set_idx out 0 word) ;;
      ret None
  | cc :: rest =>
      do t <- look (fun _ => usz_sub m width ii) ;;
      do ii_rev <- look (fun _ => usz_sub m t 1) ;;
      do (out_ii, word) <-
        (if (0 <? ii) && ((ii_rev + 1) mod 64 =? 0) then
           do _ <- write (fun out => set_idx out out_ii word) ;;
           do out_ii <- look (fun _ => usz_sub m out_ii 1) ;;
           ret (out_ii, 0)
         else ret (out_ii, word)) ;;
      match bin_digit_value cc with
      | None => ret (Some InvalidDigit)
      | Some value =>
          un_parse_base_2_loop m width rest (ii + 1) out_ii (N.lor (wshl word 1) value)
      end
  end.

(** strings.rs:338-377 [parse_base_2] *)
Definition un_parse_base_2 (m : mode) (digits : list N) (max_width : N)
  : eff (list N) (option int_error_kind) :=
  let width := as_u32 (len digits) in
  if max_width <? width then ret (Some ExceedsWidth)
  else
    do out_ii <- look (fun _ => u32_sub m (div_ceil width 64) 1) ;;
    un_parse_base_2_loop m width digits 0 out_ii 0.

(** strings.rs:313-326: loop and epilogue of [parse_base_16] *)
Fixpoint un_parse_base_16_loop (m : mode) (num : N) (digits : list N) (ii out_ii word : N)
  : eff (list N) (option int_error_kind) :=
  match digits with
  | [] =>
      do _ <- look (fun _ => debug_assert m (out_ii =? 0)) ;;
      do _ <- write (fun out => set_idx out 0 word) ;;
      do _ <- look (fun _ => u32_mul m (as_u32 num) 4) ;;
      ret None
  | cc :: rest =>
      do t <- look (fun _ => usz_sub m num ii) ;;
      do ii_rev <- look (fun _ => usz_sub m t 1) ;;
      do (out_ii, word) <-
        (if (0 <? ii) && ((ii_rev + 1) mod 16 =? 0) then
           do _ <- write (fun out => set_idx out out_ii word) ;;
           do out_ii <- look (fun _ => usz_sub m out_ii 1) ;;
           ret (out_ii, 0)
         else ret (out_ii, word)) ;;
      match hex_digit_value cc with
      | None => ret (Some InvalidDigit)
      | Some value =>
          un_parse_base_16_loop m num rest (ii + 1) out_ii (N.lor (wshl word 4) value)
      end
  end.

(** strings.rs:307-327 [parse_base_16] *)
Definition un_parse_base_16 (m : mode) (digits : list N)
  : eff (list N) (option int_error_kind) :=
  let num := len digits in
  do bits <- look (fun _ => u32_mul m (as_u32 num) 4) ;;
  do out_ii <- look (fun _ => u32_sub m (div_ceil bits 64) 1) ;;
  un_parse_base_16_loop m num digits 0 out_ii 0.

(** strings.rs:232-265: up to two words, std's parser writes nothing *)
Definition un_std_parse (lim : N) (split : N -> list N) (radix : N) (value : list N)
  : eff (list N) (option int_error_kind) :=
  do r <- look (fun _ => std_from_str_radix lim radix value) ;;
  match r with
  | StdOk v => do _ <- modify (fun _ => split v) ;; ret None
  | e => ret (Some (std_error e))
  end.

(** strings.rs:232-289 *)
Definition un_parse_magnitude (m : mode) (value : list N) (radix width : N)
  : eff (list N) (option int_error_kind) :=
  do n <- look (fun out => Ok (len out)) ;;
  if n =? 1 then
    do _ <- look (fun _ => debug_assert m (width <=? 64)) ;;
    un_std_parse B64 (fun v => [v]) radix value
  else if n =? 2 then
    do _ <- look (fun _ => debug_assert m (width <=? 128)) ;;
    un_std_parse (B64 * B64) (fun v => [as_u64 v; as_u64 (N.shiftr v 64)]) radix value
  else
    do _ <- look (fun out => debug_assert m (div_ceil width 64 =? len out)) ;;
    match strip_plus value with
    | None => ret (Some InvalidDigit)
    | Some digits =>
        if radix =? 2 then un_parse_base_2 m digits width
        else if radix =? 10 then look (fun _ => Panic PTodo)
        else if radix =? 16 then un_parse_base_16 m digits
        else look (fun _ => Panic PTodo)
    end.

(** strings.rs:197-305 [from_str_radix], ops.rs:481-484 [assign_from_str_radix] *)
Definition un_from_str_radix (m : mode) (value : list N) (radix width : N)
  : eff (list N) (option int_error_kind) :=
  match value with
  | [] => ret None
  | _ =>
      let (is_negative, value) := strip_minus value in
      if width =? 0 then
        match value with
        | [c] => if c =? c_0 then ret None else ret (Some ExceedsWidth)
        | _ => ret (Some ExceedsWidth)
        end
      else
        match value with
        | [] => ret (Some InvalidDigit)
        | _ =>
            do e <- un_parse_magnitude m value radix width ;;
            match e with
            | Some k => ret (Some k)
            | None =>
                if is_negative then do _ <- un_negate_in_place m width ;; ret None
                else ret None
            end
        end
  end.

(** ** Arrays: the state is the [ArrayValue] *)

(** owned.rs:377-410 [DenseArrayValue::store] *)
Definition un_dense_store (m : mode) (index data : bv) : eff dense unit :=
  do _ <- look (fun self => debug_assert m (width index =? d_iw self)) ;;
  do i <- look (fun _ => unwrap (bv_to_u64 index)) ;;
  do _ <- look (fun self => debug_assert m (width data =? d_dw self)) ;;
  fun self =>
    let dw := d_dw self in
    let wpe := words_per_element dw in
    let put impl := mkdense (d_iw self) dw impl in
    match d_data self with
    | DBit value =>
        inside (fun ws => put (DBit (mkbv (width value) ws))) (words value)
          (do t <- look (fun _ => bv_is_tru data) ;;
           if t then un_set_bit (as_u32 i) else un_clear_bit (as_u32 i)) self
    | DU8 values =>
        inside (fun l => put (DU8 l)) values
          (do x <- look (fun _ => unwrap (bv_to_u64 data)) ;;
           write (fun l => set_idx l i (as_u8 x))) self
    | DU64 values =>
        inside (fun l => put (DU64 l)) values
          (do x <- look (fun _ => unwrap (bv_to_u64 data)) ;;
           write (fun l => set_idx l i x)) self
    | DBig values =>
        (do start <- look (fun _ => usz_mul m wpe i) ;;
         do ws <- look (fun _ => range values start (start + wpe)) ;;
         inside (fun ws' => put (DBig (splice values start ws'))) ws (un_assign m dw data)) self
    end.

(** owned.rs:796-834 [SparseArrayValue::store].  [HashMap::remove] with a borrowed
    key looks for the entry before it takes it out, so a panic of [Borrow::borrow]
    leaves the table alone. *)
Definition un_sparse_store (probe : probe_oracle) (m : mode) (index data : bv)
  : eff sparse unit :=
  do _ <- look (fun self => debug_assert m (width index =? s_iw self)) ;;
  do _ <- look (fun self => debug_assert m (width data =? s_dw self)) ;;
  fun self =>
    let put impl := mksparse (s_iw self) (s_dw self) impl in
    match s_data self with
    | SU64U64 d map =>
        inside (fun map => put (SU64U64 d map)) map
          (do i <- look (fun _ => unwrap (bv_to_u64 index)) ;;
           do x <- look (fun _ => unwrap (bv_to_u64 data)) ;;
           modify (fun map => if x =? d then hm_remove N.eqb map i else hm_insert N.eqb map i x)) self
    | SU64Big d map =>
        inside (fun map => put (SU64Big d map)) map
          (do i <- look (fun _ => unwrap (bv_to_u64 index)) ;;
           do e <- look (fun _ => bv_is_equal m data d) ;;
           modify (fun map => if e then hm_remove N.eqb map i
                              else hm_insert N.eqb map i (bv_owned_of_ref data))) self
    | SBigBig d map =>
        inside (fun map => put (SBigBig d map)) map
          (do e <- look (fun _ => bv_is_equal m data d) ;;
           if e then write (fun map => hm_remove_borrowed probe map index)
           else modify (fun map => hm_insert bv_eqb map (bv_owned_of_ref index)
                                     (bv_owned_of_ref data))) self
    end.

(** owned.rs:154-165 [ArrayValue::store] *)
Definition un_array_store (probe : probe_oracle) (m : mode) (index data : bv) : eff array unit :=
  fun self => match self with
  | ASparse v => inside ASparse v (un_sparse_store probe m index data) self
  | ADense v => inside ADense v (un_dense_store m index data) self
  end.

(** owned.rs:167-171 [ArrayValue::clear] *)
Definition un_array_clear : eff array unit := modify array_clear.

(** owned.rs:54-68 [make_dense]: the dense array is built aside and assigned at the end *)
Definition un_array_make_dense (ho : hash_order) (m : mode) : eff array unit :=
  fun self => match self with
  | ADense _ => Returned self tt
  | ASparse s =>
      (do value <- look (fun _ => dense_of_sparse ho m s) ;;
       modify (fun _ => ADense value)) self
  end.

(** ** The interner (indexed.rs:257-283 [get_index]) *)
Definition un_get_index (m : mode) (value : bv) : eff interner bvindex :=
  let w := width value in
  match words value with
  | [word] =>
      do _ <- look (fun _ => debug_assert m (w <=? 64)) ;;
      if word <? 8 then ret (index_new (as_u32 word) w)
      else
        do o <- look (fun st => Ok (hm_get N.eqb (in_small st) word)) ;;
        match o with
        | Some index => ret (index_new index w)
        | None =>
            do index <- look (fun st => Ok (as_u32 (len (in_words st)))) ;;
            do _ <- modify (fun st => mkinterner (in_words st ++ [word]) (in_small st) (in_large st)) ;;
            do _ <- modify (fun st => mkinterner (in_words st)
                                        (hm_insert N.eqb (in_small st) word index) (in_large st)) ;;
            ret (index_new index w)
        end
  | ws =>
      do _ <- look (fun _ => debug_assert m (64 <? w)) ;;
      do o <- look (fun st => Ok (hm_get words_eqb (in_large st) ws)) ;;
      match o with
      | Some index => ret (index_new index w)
      | None =>
          do index <- look (fun st => Ok (as_u32 (len (in_words st)))) ;;
          do _ <- modify (fun st => mkinterner (in_words st ++ ws) (in_small st) (in_large st)) ;;
          do _ <- modify (fun st => mkinterner (in_words st) (in_small st)
                                      (hm_insert words_eqb (in_large st) ws index)) ;;
          ret (index_new index w)
      end
  end.
